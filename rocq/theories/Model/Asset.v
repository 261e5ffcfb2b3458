(** market/asset.go and market/asset_helpers.go. *)
From Verif Require Import Go.Outcome.
Open Scope string_scope.

(** market/asset.go:10-14 *)
Record asset := mkAsset { a_name : string; a_symbol : string; a_alt : string }.

(** The zero value of market/asset.go:10-14. *)
Definition empty_asset : asset := mkAsset "" "" "".

(** market/asset.go:16-18 *)
Definition asset_string (a : asset) : string :=
  a_name a ++ ": " ++ a_symbol a ++ String "010"%char "".

(** market/asset.go:21-31 *)
Definition new_asset (symbol name : string) : asset * option err :=
  if String.eqb symbol "" then
    (empty_asset, Some (ENew "market.NewAsset" EINVALID "Missing asset symbol"))
  else if String.eqb name "" then
    (empty_asset, Some (ENew "market.NewAsset" EINVALID "Missing asset name"))
  else (mkAsset name symbol "", None).

(** The [switch] of the three constructors, as a table in source order. *)
Fixpoint lookup (symbol : string) (tbl : list (string * string)) : option string :=
  match tbl with
  | [] => None
  | (s, n) :: rest => if String.eqb symbol s then Some n else lookup symbol rest
  end.

(** The [switch] of the three constructors in market/asset.go: lookup in the table. *)
Definition from_table (op : string) (tbl : list (string * string)) (symbol : string)
  : asset * option err :=
  match lookup symbol tbl with
  | Some name => new_asset symbol name
  | None => (empty_asset, Some (ENew op ENOTFOUND "No asset with matching symbol found"))
  end.

(** market/asset_helpers.go:8-74 *)
Definition crypto_table : list (string * string) :=
  [("AAVE", "Aave");
   ("ALGO", "Algorand");
   ("BAT", "Basic Attention Token");
   ("BTC", "Bitcoin");
   ("BCH", "Bitcoin Cash");
   ("ADA", "Cardano");
   ("LINK", "Chainlink");
   ("COMP", "Compound");
   ("ATOM", "Cosmos");
   ("DAI", "DAI");
   ("DASH", "Dash");
   ("DOGE", "Dogecoin");
   ("EOS", "EOS.IO");
   ("ETH", "Ethereum");
   ("ETC", "Ethereum Classic");
   ("EWT", "Energy Web Token");
   ("EWTB", "Energy Web Token Bridged");
   ("FILE", "Filecoin");
   ("FLOW", "Flow");
   ("LTC", "Litecoin");
   ("XLM", "Lumen");
   ("XMR", "Monero");
   ("NANO", "Nano");
   ("MATIC", "Polygon");
   ("QTUM", "Qtum");
   ("OCEAN", "Ocean Token");
   ("DOT", "Polkadot");
   ("USDT", "Tether USD");
   ("GRT", "The Graph");
   ("UNI", "Uniswap");
   ("USDC", "USD Coin");
   ("XRP", "Ripple");
   ("ZED", "ZCash")].

(** market/asset_helpers.go:83-87 *)
Definition forex_table : list (string * string) :=
  [("USD", "United States Dollar"); ("EUR", "Euro")].

(** market/asset_helpers.go:97-99 *)
Definition stock_table : list (string * string) := [("AAPL", "Apple Inc")].

(** market/asset_helpers.go:5-78 *)
Definition new_crypto_asset : string -> asset * option err :=
  from_table "market.NewCryptoAsset" crypto_table.
(** market/asset_helpers.go:80-92 *)
Definition new_forex_asset : string -> asset * option err :=
  from_table "market.NewForexAsset" forex_table.
(** market/asset_helpers.go:94-104 *)
Definition new_stock_asset : string -> asset * option err :=
  from_table "market.NewStockAsset" stock_table.
