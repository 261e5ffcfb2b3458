(** strategy/actions.go, order_actions.go, position_actions.go, strategy.go. *)
From Verif Require Import Go.Outcome Go.Float64 Go.Num Model.Candle Model.Entities.
Open Scope string_scope.
Open Scope list_scope.

(** A Go map from strings: [None] is the nil map. *)
Definition gmap (A : Type) : Type := option (string -> option A).

(** [m[k] = v]: writing to a nil map panics. *)
Definition map_set {A} (m : gmap A) (k : string) (v : A) : go (gmap A) :=
  match m with
  | None => Panic PNil
  | Some f => Ret (Some (fun k' => if String.eqb k' k then Some v else f k'))
  end.
(** [m[k]] with comma-ok; reading a nil map finds nothing. *)
Definition map_get {A} (m : gmap A) (k : string) : option A :=
  match m with None => None | Some f => f k end.
(** [if m == nil { m = map[string]A{} }] *)
Definition map_init {A} (m : gmap A) : gmap A :=
  match m with None => Some (fun _ => None) | Some _ => m end.

(** strategy/order_actions.go:8-18 *)
Record create_order (F : Type) := mkCreate {
  co_id : string; co_symbol : string; co_action : string; co_otype : string;
  cr_price : F; cr_volume : F; cr_stop : F; cr_take : F; cr_slip : F }.
(** strategy/order_actions.go:24-32 *)
Record update_order (F : Type) := mkUpdOrder {
  uo_id : string; uo_order : string; uo_price : F; uo_volume : F; uo_stop : F; uo_take : F;
  uo_slip : F }.
(** strategy/order_actions.go:38-41 *)
Record cancel_order := mkCancel { ca_id : string; ca_order : string }.
(** strategy/position_actions.go:8-17 *)
Record update_position (F : Type) := mkUpdPos {
  up_id : string; up_position : string; up_action : string; up_otype : string; up_volume : F;
  up_stop : F; up_take : F; up_slip : F }.
(** strategy/position_actions.go:23-26 *)
Record close_position := mkClosePos { cp_id : string; cp_position : string }.
Arguments mkCreate {F}.
Arguments mkUpdOrder {F}.
Arguments mkUpdPos {F}.
Arguments co_id {F} c.
Arguments uo_id {F} u.
Arguments up_id {F} u.

(** GenerateID (order_actions.go:20-22, 34-36, 43-45; position_actions.go:19-21,
    28-30): store the next result of xid.New().String(), here [id]. *)
Definition create_gen {F} (id : string) (a : create_order F) : create_order F :=
  let (_, a2, a3, a4, a5, a6, a7, a8, a9) := a in mkCreate id a2 a3 a4 a5 a6 a7 a8 a9.
(** strategy/order_actions.go:34-36 *)
Definition update_gen {F} (id : string) (a : update_order F) : update_order F :=
  let (_, a2, a3, a4, a5, a6, a7) := a in mkUpdOrder id a2 a3 a4 a5 a6 a7.
(** strategy/order_actions.go:43-45 *)
Definition cancel_gen (id : string) (a : cancel_order) : cancel_order :=
  mkCancel id (ca_order a).
(** strategy/position_actions.go:19-21 *)
Definition uppos_gen {F} (id : string) (a : update_position F) : update_position F :=
  let (_, a2, a3, a4, a5, a6, a7, a8) := a in mkUpdPos id a2 a3 a4 a5 a6 a7 a8.
(** strategy/position_actions.go:28-30 *)
Definition close_gen (id : string) (a : close_position) : close_position :=
  mkClosePos id (cp_position a).

(** strategy/actions.go:4-11 *)
Record actions (F : Type) := mkActions {
  create_orders : gmap (create_order F);
  update_orders : gmap (update_order F);
  cancel_orders : gmap cancel_order;
  update_positions : gmap (update_position F);
  close_positions : gmap close_position;
  annotations : list (annotation F) }.
Arguments mkActions {F}.
Arguments create_orders {F} a.
Arguments update_orders {F} a.
Arguments cancel_orders {F} a.
Arguments update_positions {F} a.
Arguments close_positions {F} a.
Arguments annotations {F} a.

(** The loops at strategy/actions.go:18-21, 29-32, 40-43, 51-54, 62-65: the
    i-th action gets the next id of the stream [ids]. *)
Fixpoint add_loop {A} (gen : string -> A -> A) (get_id : A -> string)
    (ids : nat -> string) (n : nat) (m : gmap A) (l : list A) : go (gmap A) :=
  match l with
  | [] => Ret m
  | a :: rest =>
      let a' := gen (ids n) a in
      m' <- map_set m (get_id a') a' ;;
      add_loop gen get_id ids (S n) m' rest
  end.

Section Actions.
Context {F : Type}.
Implicit Types a : actions F.

(** strategy/actions.go:13-22.  [ids n], [ids (n+1)], ... are the results of
    the xid.New().String() calls made here. *)
Definition add_create_orders (ids : nat -> string) (n : nat) a (l : list (create_order F))
  : go (actions F) :=
  m <- add_loop create_gen co_id ids n (map_init (create_orders a)) l ;;
  Ret (mkActions m (update_orders a) (cancel_orders a) (update_positions a) (close_positions a)
         (annotations a)).
(** strategy/actions.go:24-33 *)
Definition add_update_orders (ids : nat -> string) (n : nat) a (l : list (update_order F))
  : go (actions F) :=
  m <- add_loop update_gen uo_id ids n (map_init (update_orders a)) l ;;
  Ret (mkActions (create_orders a) m (cancel_orders a) (update_positions a) (close_positions a)
         (annotations a)).
(** strategy/actions.go:35-44 *)
Definition add_cancel_orders (ids : nat -> string) (n : nat) a (l : list cancel_order)
  : go (actions F) :=
  m <- add_loop cancel_gen ca_id ids n (map_init (cancel_orders a)) l ;;
  Ret (mkActions (create_orders a) (update_orders a) m (update_positions a) (close_positions a)
         (annotations a)).
(** strategy/actions.go:46-55 *)
Definition add_update_positions (ids : nat -> string) (n : nat) a (l : list (update_position F))
  : go (actions F) :=
  m <- add_loop uppos_gen up_id ids n (map_init (update_positions a)) l ;;
  Ret (mkActions (create_orders a) (update_orders a) (cancel_orders a) m (close_positions a)
         (annotations a)).
(** strategy/actions.go:57-66 *)
Definition add_close_positions (ids : nat -> string) (n : nat) a (l : list close_position)
  : go (actions F) :=
  m <- add_loop close_gen cp_id ids n (map_init (close_positions a)) l ;;
  Ret (mkActions (create_orders a) (update_orders a) (cancel_orders a) (update_positions a) m
         (annotations a)).
(** strategy/actions.go:68-70 *)
Definition add_annotations a (l : list (annotation F)) : actions F :=
  mkActions (create_orders a) (update_orders a) (cancel_orders a) (update_positions a)
    (close_positions a) (annotations a ++ l).

(** A time.Time as Tick returns it: the instant (Unix seconds) and the name of
    the zone it is displayed in. *)
Record ztime := mkZTime { z_instant : Z; z_zone : string }.

(** The zero time.Time (shown in UTC). *)
Definition ztime_zero : ztime := mkZTime (-62135596800) "UTC".

(** strategy/strategy.go:11-18, the field used here. *)
Record tick := mkTick { tk_candle : option (candle F) }.

(** strategy/strategy.go:21-23 *)
Definition get_local_time (t : tick) : go ztime :=
  match tk_candle t with
  | None => Panic PNil
  | Some c => Ret (mkZTime (c_time c) "Local")
  end.

(** strategy/strategy.go:26-37.  [load] is time.LoadLocation: the name of the
    loaded zone, or an error. *)
Definition get_location_time (load : string -> string + string) (t : tick) (location : string)
  : go (ztime * option err) :=
  match load location with
  | inr m => Ret (ztime_zero, Some (EWrap "Tick.GetLocationTime" (EExt m)))
  | inl z =>
      match tk_candle t with
      | None => Panic PNil
      | Some c => Ret (mkZTime (z_instant (mkZTime (c_time c) "Local")) z, None)
      end
  end.

End Actions.
