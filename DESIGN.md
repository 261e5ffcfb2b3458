# finmod in Rocq (Coq 8.16.1): design

The subject is the Go library in `/repo` (packages `market`, `indicators`, `strategy`,
`utils`). It is a pure library: it starts no goroutines and takes no locks (C95, C122, C124 and C127 say what that means for
callers that do). Its semantics lives in
slice/index logic, float64 arithmetic, text formatting and parsing, and Go value/aliasing rules.

## Layout of `rocq/theories`

| directory | contents |
|---|---|
| `Go/`    | the parts of the Go language and standard library the code uses: outcomes (return / panic), `int64` wrap-around, slices with capacity, IEEE-754 binary64/binary32 (Flocq), `strconv`/`fmt` float and int text, `time` |
| `Model/` | the code itself, function by function, each definition citing file and lines |
| `Spec/`  | small definitions used only to *state* properties (sortedness, maps, calendar, windows), written without reference to the model's helpers |
| `Proofs/`| lemmas |
| `Props/` | the property theorems (most closed by `exact`), satisfiability `Example`s and `Print Assumptions` |

## Modelling decisions

* **Panics** are values: `go A := Ret a | Panic why`. Go's `(T, error)` is the pair `T * option err`.
* **float64** is Flocq's `binary_float 53 1024` (all doubles, NaN identified to one NaN: Go code here
  cannot see payloads); operations are Flocq's round-to-nearest-even operations, comparisons are IEEE
  (false on NaN). The compiler is assumed not to fuse `x*y+z` (true for Go on amd64).
* The numeric code is written once, over a record of float operations (`GoFloat F`), and read twice:
  at `F := f64` (the code) and at `F := R` (the same formulas in exact real arithmetic). A theorem over `R`
  is always labelled "exact arithmetic"; the theorem about machine floats is the one over `f64`.
* **int / int64** are `Z` with explicit `wrap64` where Go could overflow, truncated division, panic on zero divisor.
* **Slices** are lists; where nil-ness or capacity is observable (`RSI`, nil checks) a slice is its visible
  list plus the hidden elements up to capacity. Aliasing of the order book's slices gets its own
  heap-level model (`Model/OrderBookHeap.v`).
* **Environment inputs** (time zone, generated ids, I/O faults, clock) are explicit arguments quantified universally.
* `sort.SliceStable` is modelled by the Go library's algorithm (`Go/Sort.v`: insertion sort on blocks of 20,
  in-place SymMerge with rotations), because with NaN prices the comparison is not an order and the result
  depends on the algorithm. For NaN-free input theorem C01 is stated through the uniqueness of the stable sort.

## Plan per property

(`f64` = about machine floats, `R` = exact arithmetic, `order` = only float comparisons matter.)

| id | model | method |
|---|---|---|
| C01 C02 | `OrderBook.new_order_book` | order; stable-sort uniqueness, prefix; fold lemma (f64), sum (R) |
| C03 C04 C05 C10 | `apply_update`, histories by `fold` | invariant by induction over the update list; MaxDepth beyond 2^53: Proofs/DepthFree.v shows that depths no side can reach all give the same rows |
| C06 C08 C17 C18 C11 | `apply_update` | refinement to price→row lookup + sorted-list extensionality |
| C07 C12 | `remove_invalid`, `apply_update` | exact characterisation + `_refuted` witnesses |
| C09 | `apply_update` | case analysis |
| C13 | `get_depth` | order; induction over rows |
| C14 C15 | `calculate_overlap` | order, f64 sign, exact panic condition, R closed form in all cases, float64 = R on whole numbers (exactness of each step), `_refuted` witness |
| C16 | heap model | simulation with the list model + frame; `_refuted` witness |
| C19 C20 C21 C28 C29 | `modify_interval` | loop invariant: outputs = map compress (groups) |
| C22 C23 C24 C26 | same | regular series lemma on groups; C23 volumes: error of a merged volume (C75) applied to both steps (Proofs/ResampleVolume.v) |
| C25 | `find_first_index` with a zone oracle | arithmetic; `_refuted` witnesses |
| C27 | `compress_candle` | R: rounding to 5 decimals; f64: Flocq error bound |
| C30 | `get_min_interval` | induction + float/int conversion exactness below 2^53 |
| C31 C32 C33 C35 | text model of `Fprintln`, `bufio.Scanner`, `strings.Split`, `ParseInt`, `ParseFloat` | round trip through digits; correct rounding via Flocq; prefix induction |
| C34 | writer oracle | `_refuted` witness + what the file contains |
| C36–C45 | `Position`, `Trade` | R: field/induction over histories; f64: order |
| C46–C49 | `OrderRequest`, `Order`, the named order types | case analysis; R field |
| C50–C52 | tables | case analysis, finite sweep of all entries, string lemmas |
| C53–C57 | `MovingAverage` … | induction over the series; R bounds; f64 recurrences and sign |
| C58 | `calculate_rsi` | Flocq monotonicity of rounding |
| C59 C60 | slice with capacity | classification + `_refuted` witness |
| C61–C63 | `findFractal` | induction over the right scan |
| C64 | `Actions` with id stream | induction over the argument list |
| C65 | zone oracle | by definition of instants (thin: `time` is external) |
| C66 | layout parser for RFC3339 + civil calendar | parser inversion; calendar arithmetic |
| C67 | String methods' panicking expressions | case analysis |
| C68 | heap model of positions and their trade slices | simulation + frame; `_refuted` witness for shared backing arrays |
| C69 C70 C71 | `Model/Strings.v` over the `fmt` text model | string lemmas; correct rounding of printed decimals, ties to the even digit, via Flocq; the specification determines the text (`decimal_text_unique`) |
| C72 C73 | `apply_update`, histories | book = function of the last update per price (`Spec/HistorySpec.v`); permutation invariance |
| C74 C75 | indicators, `accum`, `compress_candle` at `f64` and at `R` | standard error model derived from Flocq (`Go/FloatError.v`), induction with error budget; `_refuted` witnesses |
| C76 | `Go/Sort.v` | segment lemmas for each in-place step, invariants of the block loops; rank of an element turns a strict weak order into an integer key |
| C77, C78 | `Model/OrderBook.v` | every step of the model preserves a relation between two books with related prices; instances: negation with sides exchanged, an order-preserving relabelling, a float and the real it denotes |
| C79 | `Model/Indicators.v` (fractals) | the test at each index gives the same answer on the transformed series; reports are read off the index list of C62 |
| C80 | `calculate_rsi` at f64, with the float32 result, against the same computation over R | relative error of the two sums by induction; moderate and very large ratios separately |
| C81 | `Model/Indicators.v` (averages, ewv) at f64 | every operation rounds monotonically and a finite result has finite operands; for the smoothed average, gaps between machine numbers around n*rnd(s/n) (`Proofs/SmoothedMonotone.v`) |
| C82 | `Model/Entities.v` (new_position, modify, unrealized_profit, new_trade, calculate_fields) at f64 | relative error calculus for positive numbers: k roundings are a factor within (1+u)^k (`Proofs/MoneyError.v`); induction over the trades |
| C83 | `Go/Json.v` (encoding/json: trees, text, reflection over Go types), `Model/Stored.v` (each struct as a value of its Go type, with its tags) | writer/scanner inverse on trees; floats by the shortest-decimal theorem of C34; times by the calendar of C66; induction over Go types (`Proofs/JsonValue.v`) |
| C84 | the same | induction over Go types; UTF-8 as an inductive predicate (RFC 3629, `Spec/JsonSpec.v`); `_refuted` witness for invalid bytes |
| C85 | `Go/Json.v`, `Model/Stored.v`, schemas and identifiers in `Model/Entities.v` | the first member of a struct's text; member names differ |
| C86 | `Model/Candle.v` | one simulation lemma for any change of candles that commutes with start test, maximum, minimum and assembly; instances time, negation, order-keeping maps |
| C87 | `Model/Candle.v` | the first batch ends in the state in which the second starts; minutes of the hour and divisors of 60 |
| C88 | `Model/CandleFile.v`, `Go/Text.v` | lines of concatenated texts; accumulator of the loop; loaded times fit 32 bits; printed lines are injective |
| C89 | `Model/Indicators.v` | rounding commutes with multiplication by 2^k for normal results, and for sums of two numbers everywhere; two runs related operation by operation |
| C90 | `Model/Entities.v` | relation between the two positions kept by every step; subtraction antisymmetric up to the sign of zero for all float64 values |
| C91 | `Go/Text.v`, `Model/CandleFile.v` | any decimal notation scanned into digits and exponent; the quotient of integers rounded once (Flocq); exponents beyond 10000 give zero or overflow whatever their digits |
| C92 | `Go/Json.v`, `Model/Stored.v` | grammar of JSON as an inductive relation between texts and trees, proved by mutual induction to be what the parser follows; denotation of trees per type; structs by an invariant over the members still to come, maps by uniqueness of sorted lists, dates by next-day steps from 1970 |
| C93 | `Go/Json.v`, `Model/Date.v` | every scanner inverted: what it consumed is in the grammar; with C92's direction this gives an equivalence for trees and for times; `clash` by recursion on the type, refused by induction over types with the fold over members failing at the clashing one; chains of arrays and objects inside each other against the limit of 10000 levels |
| C94 | `Model/OrderBook.v` | `redelivered` is inductive (any number of rewinds); `room` counts different prices, not updates: a run with room never truncates (`Proofs/Replay.v`), so it is determined by `last_at`, which rewinding preserves; three refutations for the three conditions |
| C95 | `Model/Concurrent.v` | calls as trees of single memory accesses; run alone equal to the heap model (`Proofs/Concurrent.v`); invariant over all schedules with a lock (`Proofs/Locked.v`); read-only programs (`Proofs/Readers.v`); concrete schedules for the seven refutations |
| C96 | `Model/Entities.v` (new_position, modify, unrealized_profit) at f64 | invariant abs(Q - net) <= 2ku*gross and abs(P*Q - money in) <= 8ku*value (u = 2^-53) over the recorded trades, with a magnitude/grid argument excluding underflow (`Proofs/Ledger.v`); whole quantities by exactness below 2^53 |
| C97 | `Model/Fused.v`: the six functions with fusable expressions, a choice per evaluation (Flocq's `Bfma`) | the rounding lemma for the fused operation replaces two of the steps in the proofs of C74, C81, C15, C82 and C96; the shape results by stepping both loops together; witnesses by computation |
| C98 | `calculate_overlap`, `calculate_overlap_fused` at f64 | induction over the selling loop: the result is near the exact proceeds of some amount near the exact one, whatever branches were taken; `proceeds` is Lipschitz in the amount (`Proofs/OverlapError.v`) |
| C99 | `exponential_moving_average`, `smoothed_moving_average`, `moving_average`, `ewv` at R and f64 | the loops over R are the recurrence x' = k x + (1-k) c; closed form, superposition and contraction by induction (`Proofs/Forget.v`), float64 by the bounds of C74 |
| C100 | `apply_updates`, `modify_all`, `marshal`, `unmarshal` | runs with restarts are inductive relations (`Spec/PersistSpec.v`); what Marshal accepts comes back (C83, C84), and updates keep rows storable (parametricity of C78) (`Proofs/Persist.v`) |
| C101 | `unmarshal_into`, `decode` (`Go/JsonInto.v`, `Go/Json.v`) | meaning of a text over an old value as a relation (`Spec/IntoSpec.v`), decoder proved to follow it; text of a stored value over any value by induction over the type (`Proofs/Into.v`, `IntoRead.v`); objects in parts by `fold_left_app` (`IntoParts.v`) |
| C102 | `apply_update`, `limit` (`Model/OrderBook.v`) | the run of a book whose sides stay apart is two independent runs that truncate at every step (`Proofs/Horizon.v`); by induction from the end: what is shown, what is lost, the first rows, and counting of better rows for two depths |
| C103 | `calculateRSI`, `RSI` on binary64 with the conversion to float32 | one step of the sums is monotone in both closes and both accumulators (with infinities); division, `100 - 100/(1+rs)` and the conversion are monotone because rounding is; the middle closes are refuted by computation |
| C104 | all functions of orderbook.go except the printing ones, on binary64 | `same_levels` relates books that may differ in time and accumulated volumes; the relational lemmas of Proofs/Symmetry.v give the step for ApplyUpdate, and the time is shown to be carried along unread; the other functions read price and volume only. Rebuilding: a sorted list is its own stable sort (uniqueness of the stable sort), nothing is cut, and the totals are recomputed |
| C105 | `GetDepth` on binary64 | from the exact description of the answers (C13): highest ask not above, lowest bid not below; order reasoning on these, with uncrossed for the comparison across sides; the crossed case is refuted by computation |
| C106 | `MovingAverage`, `RSI`, `WilliamFractals` and the recursive indicators on binary64 | the closed forms by windows (C53, C58) shifted by the number of dropped candles; a fractal report is a function of the two candles before and all candles after; the recursive ones are refuted by computation |
| C107 | `Modify`, `add`, `substract` over R, the trade-list part over binary64 | one step from an open position to an open position is `moved`: value and size change by the signed amounts; induction gives the closed form, from which order and partition follow; sorting increases to the front keeps the size positive by an exchange argument; the float64 counterexample is computed |
| C108 | ModifyInterval, GetMinInterval, the averages, RSI, EWV, WilliamFractals | two runs related step by step: by `agree seen` for ModifyInterval (any set of fields), by equality of the fields read for the others |
| C109 | all exported functions that can panic | from the complete descriptions of each function (C14, C21, C35, C53-C55, C59, C67) plus the missing converses |
| C110 | pointer arguments and receivers, nil included (Model/Pointers.v) | case analysis on the pointers and on what is looked at before the first dereference |
| C111 | `Modify`, `NewPosition` on binary64 | case analysis of one call with all fifteen fields; histories by induction (`Proofs/Frame.v`) |
| C112 | `fmt_v`, `json_float`, `shortest` (Go/Text.v, Go/Json.v): strconv shortest formatting as used by fmt and encoding/json; the digit search tries 1 to 17 digits and takes the nearest candidate that reads back | `shortest_spec`: the search result is `shortest_for` the number over the reals; uniqueness of the decimal (parity argument for ties) and of its tidy notation give an equivalence: the text is the model output iff it meets the specification |
| C113 | `rsi_value`, `rsi` at float64/float32 (Model/Indicators.v) | rises minus falls telescope to the net move, rises plus falls are the distance (Proofs/RsiShape.v); with C80 each algebraic identity of the exact index becomes a bound for the computed values |
| C114 | `removeInvalid`, `ApplyUpdate`, `NewOrderBook` on NaN prices and volumes (Model/OrderBook.v) | both comparisons with NaN are false, so the search of the own side falls through to append and the crossed search stops at the first row; induction over the repetitions; `find_from` on a list and on its real rows finds the same row |
| C115 | `parse_float`, `parse_special`, `parse_hex`, `underscore_ok`, `parse_int` (Go/Text.v), `load_line`, `load_candles` (Model/CandleFile.v) | grammar with exact values (Spec/NumberSpec.v); scanner inverted in both directions, position of underscores by induction over the text, hexadecimal values by Flocq division as for C91 (Proofs/Number.v) |
| C116 | Model/CandleFile.v (`write`, `save_loop`, `load_candles`): every write may stop after any number of bytes, reading may stop anywhere | `made` describes every content failed writes can leave, closed under prefixes; `brace_rejected`: a brace among the first six words is an error, because no text accepted by ParseFloat/ParseInt has one (grammar of C115); induction over the writes; the over-long line by counting bytes |
| C117 | `Actions` and its six Add methods with maps as references into a store of maps and Annotations as a slice over a backing array (Model/ActionsHeap.v) | a tracking relation between two variables (one map, or different maps) is kept by every call for each collection separately; appends to full or disjoint slices are invisible through the other; refutations by concrete memory |
| C118 | `ModifyInterval`, `compressCandle` over backing arrays, the result growing by `append` with arbitrary spare capacity (Model/CandleHeap.v) | simulation of the list model: the output slice starts nil, hence apart from every existing slice, and stays so; a single candle returns the header itself |
| C119 | `overlapCalculation`, `CalculateOverlap` (Model/OrderBook.v): detection on binary64, value over the reals | deals as amounts per row (Spec/ArbitrageSpec.v); a price q gives a dual bound on every gain, greedy matching attains it at its last price (Proofs/Arbitrage.v); value from the closed form `overlap_exact` (Proofs/DepthOverlap.v); two concrete pairs refute optimality |
| C120 | `ModifyInterval` followed by `WilliamFractals` (Model/Candle.v, Model/Indicators.v) | the group pattern `turns` (Spec/TurningSpec.v) is equivalent to the pattern on the summaries; the first candle attaining the outermost price of a turning group has the pattern in the original series, since two inside groups hold two inside candles (Proofs/Turning.v); refutation by a concrete series |
| C121 | `ModifyInterval` followed by each indicator (Model/Candle.v, Model/Indicators.v) | closes of the output are the closes of the last candles (C19), which is all the averages and RSI read (C108); outputs have wider ranges than members (C81); leaving candles out keeps the net move and shortens the distance by the triangle inequality (Proofs/Thin.v), so C113 moves the index away from 50 |
| C122 | the five map methods and `AddAnnotations` step by step, goroutines and an optional lock (Model/ActionsConcurrent.v) | invariant of all interleavings: each action is still to be written by some goroutine or is in the map; under the lock only its owner is between the nil test and the store of the new map; completion by running the owner and then the idle goroutines; explicit schedules for the losses |
| C123 | json.Unmarshal into a book over explicit memory (Model/BookInto.v): the array loop with growth, SetLen and reading over old elements, errors remembered while reading goes on | loop invariant giving the exact memory (one store into the old array, new arrays behind), agreement with `decode` element by element, the four members of a stored book in order; refutations by computation |
| C124 | market/position.go:125-186 with every field access a step of a goroutine (Model/PositionConcurrent.v, machine of Model/ActionsConcurrent.v); Trades with its backing array | Locked runs: invariant that the memory is the result of the finished calls in log order and the call in progress continues what it would do alone (Proofs/SharedPosition.v); exact schedule independence from C107. Unlocked: invariant on the slices held by calls in progress; the races are built symbolically for all positions and trades (Proofs/SharedPositionRaces.v) |
| C125 | MovingAverage, SmoothedMovingAverage, ExponentialMovingAverage and RSI of Model/Indicators.v in float64, closes in whole ticks (Spec/TickSpec.v) | Proofs/Ticks.v: a float64 operation whose exact result is at most 2^53 units of 2^e is exact, so all sums are exact integers and the single division rounds; two quotients with equal ratio round alike (B2R_inj), larger ratios round no lower |
| C126 | `NewPosition`, `Modify`, `UnrealizedProfit` of Model/Entities.v in float64, quantities in whole lots (Spec/LotSpec.v: books kept in integers) | Proofs/Lots.v: the four cases of C111 with the comparisons read off the integers (ticks_lt, ticks_le, ticks_literal), sums exact by Proofs/Ticks.v; induction over the history |
| C127 | market/position.go:115-122 as field accesses of a goroutine beside those of C124 (Model/PositionReaders.v) | Locked runs by the sequential lemma of C124 over the larger memory; answers only grow, so every one belongs to a finished run. Asking only: invariant that the memory stays. Asking unnoticed: simulation by runs without the asking goroutines. Torn answers: one call runs in the middle of the other, for all positions (Proofs/PositionReaders.v) |
| C128 | market/orderbook.go (NewOrderBook, ApplyUpdate, CalculateOverlap) on books whose prices and volumes are multiples of powers of two | Every intermediate sum, difference and product is shown to be a representable multiple of one of three units 2^f, 2^(e+f), 2^e (Proofs/GridOverlap.v, lemmas of Proofs/Ticks.v); histories by C12_accum_exact_effect; decimal counterexample by evaluation |
| C129 | No new model: `modify_interval` of Model/Candle.v, any time zone offset function. Volumes are given as whole multiples of a power of two from 1/32 up (Spec/LotVolumeSpec.v). | Float sums on the grid are exact (`sum_ticks`), and since 10^5 = 2^5 * 5^5 every multiple of 1/32 has five decimals, so the rounding of the merged volume is the identity (`round_lots`). The groups come from `modify_interval_groups` (Proofs/CandleThms.v); the two-step claim uses the pieces of C23. `C129_smaller_lots_refuted` shows that 1/32 is the limit. |
| C130 | `calculate_fields` of Model/Entities.v in float64, quantity and price whole multiples of powers of two | By C47 the new field is one product or one quotient. Its exact value is on the grid and at most 2^53 units, so it is a float64 and rounding keeps it (`tick_op`). `C130_decimal_refuted`: not so in tenths. |
| C131 | `new_trade` and `calculate_fields` of Model/Entities.v in float64 | One product and one difference, both on the grid and so exact (`ticks_mul`, `ticks_sub`). Completed requests: the total is the same rounded product as in the fee, with the factors exchanged. `C131_by_total_refuted` for requests by total. Machines that fuse product and difference are treated in C97 (Model/Fused.v), not here. |

Runtime behaviour no model here expresses: memory exhaustion, OS errors other than those named, performance,
and what a racy program may do beyond interleavings of single memory accesses (torn slice headers, reordering).

## Trusted base

**Checker.** The Coq 8.16.1 kernel (including its `vm_compute` reduction machine, used for concrete examples and
for the finite sweep of the pair table), Flocq 4.1.0 (definitions and proofs only; it adds no axioms) and the
standard library. No axioms of our own, no admitted proofs, no plugins.

**What `Print Assumptions` lists.** Every property theorem is in one of three groups:

* *closed under the global context* (77 theorems): `C122_*` (11), `C01_stable_sort_unique`, `C06_level_set_unique`,
  `C20_grouping_unique`, `C21_table_complete`, `C34_write_failures_never_reported`, `C49_*` (4),
  `C50_*` (4), `C51_*` (6), `C52_*` (3), `C53_total`, `C63_no_late_reports`, `C64_*` (8), `C65_*` (3),
  `C66_*` (5), `C67_nil_asset_in_snapshot`, `C76_stays_in_bounds`, `C76_sorts_stably`, `C76_unique`,
  `C77_mirror_involutive`, `C85_tables_distinct`, `C85_new_annotation`, `C91_integer`, `C92_text`, `C92_repo_types`, `C92_calendar`, `C92_time`, `C93_accepts`, `C93_one_tree`, `C93_well_formed`, `C93_time`, `C93_strict_time`, `C101_without_maps`, `C101_zero_time`, `C115_whole`, `C109_rsi_nil`, `C109_update`, `C109_tick`, `C110_nil_receiver`, `C110_nil_actions`, `C110_nil_tick`;
* `C71_text_determined`, `C71_every_value_has_text`, `C99_weights_sum`, `C112_one_text`, `C119_best_matching`, `C119_best_unique`: `ClassicalDedekindReals.sig_forall_dec` and
  `FunctionalExtensionality.functional_extensionality_dep` only (standard-library reals);
* *all others*: exactly the four axioms the standard library uses for the classical real numbers, on which
  Flocq's floating-point proofs rest:
  `ClassicalDedekindReals.sig_not_dec`, `ClassicalDedekindReals.sig_forall_dec`,
  `FunctionalExtensionality.functional_extensionality_dep`, `Classical_Prop.classic`.
  (A theorem that merely mentions a `binary_float` operation lists them, since Flocq's operations carry proofs.)

**What is modelled.** All functions of the non-test files:

| source | model |
|---|---|
| `market/orderbook.go`, `orderbook_types.go` | `Model/OrderBook.v` (lists), `Model/OrderBookHeap.v` (same code with backing arrays), `Model/Concurrent.v` (`ApplyUpdate`, `GetDepth` access by access), text in `Model/Strings.v` |
| `market/candle.go` | `Model/Candle.v` (time zone = arbitrary offset function), `Model/CandleHeap.v` (ModifyInterval over backing arrays), text in `Model/Strings.v` |
| `market/candle_load.go` | `Model/CandleFile.v` (file = bytes; faults of create/open/write/read are arguments) |
| `market/asset.go`, `asset_helpers.go`, `pair.go`, `pair_mappings.go` | `Model/Asset.v`, `Pair.v`, `PairMappings.v` (the whole table) |
| `market/trade.go`, `order.go`, `order_request.go`, `position.go`, `balances.go`, `ticker.go` | `Model/Entities.v`, `Model/PositionHeap.v` (Trades with its array), `Model/PositionConcurrent.v` (`Modify` access by access), `Model/PositionReaders.v` (`UnrealizedProfit` beside it), `Model/Strings.v` |
| `indicators/*.go` | `Model/Indicators.v`; these, overlap, fee and partial close with fused products in `Model/Fused.v` |
| `strategy/*.go` | `Model/Strategy.v`, `Model/ActionsHeap.v` (maps as references), `Model/ActionsConcurrent.v` (goroutines), annotation in `Model/Entities.v` |
| struct tags of all of these | `Model/Stored.v` |
| pointer arguments and receivers that are nil | `Model/Pointers.v` |
| `utils/date.go` | `Model/Date.v` (with `time.Parse` for RFC3339 and the calendar of package `time`) |

**Trusted: that these models read the source correctly**, and that `Go/*.v` describes the Go language and library:

* `Go/Outcome.v`, `Int64.v`, `Slice.v`: panics, wrap-around, truncated division, slice expressions with capacity;
* `Go/Heap.v`: backing arrays, `append` (spare capacity of a new array is an arbitrary argument), in-place writes;
* `Go/Float64.v`: IEEE-754 operations with one NaN; conversion of an out-of-range float to `int` is what amd64
  does (minimum int64);
* `Go/Sort.v`: `sort.SliceStable`; `Go/Text.v`: `%d %v %f` of numbers, `ParseInt`, `ParseFloat`, `strings.Split`,
  `bufio.Scanner`; `Model/Strings.v`: `fmt.Sprintf` for the verbs used; `Model/Date.v`: `time.Parse`;
* `Go/Json.v`, `Go/JsonInto.v`: `encoding/json` (Go 1.16: control characters other than newline, return and tab as `\u00xx`), `time.Time`'s JSON
  methods.

**Not modelled.** The error values of encoding/json; memory exhaustion; fused multiply-add outside C97 (the other claims
are about amd64, where gc does not fuse); NaN payloads; monotonic-clock readings in `time.Time` (times are instants);
`xid` identifiers (arbitrary strings; where a property needs them distinct it says so); map iteration order
(no function here iterates over a map); memory models weaker than sequential consistency (C95: a program whose calls
hold a lock is race free, and for those Go guarantees sequential consistency; a racy one has at least the behaviours of the model).
`Model/*` comments name the remaining simplifications at each definition.

## The repository's tests on the model

`theories/Tests/RepoTests.v` runs the assertions of the repository's `*_test.go` files on the model by computation: trades and
positions with their float64 values, `CalculateFields`, `Pair.Symbol`, `CalculateOverlap`, order book updates, the
volatility (exact), moving averages, RSI, fractals, and `ModifyInterval` on the data sets of `market/test_dataset` loaded
through the model of `LoadCandlesFromFile` (exact equality of all candles).  To keep the proof checker fast the file holds an
excerpt of the data (the first 120 one-minute candles and 26 to 40 rows of the csv files); the same file generated for all
data (1440 one-minute candles, 2625 and 514 csv rows) is not in the build, it was compiled once outside it.  The csv values
were transcribed by a script, the test helper which reads the csv files is not modelled.  `TestCreateMapping` is left out: it
asks a web server for its data and calls nothing of the library.

All assertions hold of the model except one: the values `TestExponentialMovingAverage` expects (`test_ema_fails`).  Recomputing
the source's loop in Python gives the model's values (the first is the plain average 34452.05, the test expects 34483.65), so
we believe the source does not pass that test either (it was not run); C54 states what it computes.

## Seeded faults

`seeded/LOG.jsonl` records one deliberately wrong program per line: the edited definition, the edit, the properties
whose English statement the edit makes false, and what happened to the development.  A run applies the edit to a
scratch copy and rebuilds; each proof that fails is put aside and the build continues, so that the complete list of
failing proofs is found (`first_failing_lemmas`).  `failed_theorems` lists the property theorems that fail themselves
or whose proof uses a failing lemma.  The second kind is not by itself evidence that the theorem became false: a proof
can break for a reason unrelated to its statement.  What a line establishes is that no theorem of a property in
`breaks` survived unnoticed.  `tightened` names theorems strengthened because the first run had shown a gap.
