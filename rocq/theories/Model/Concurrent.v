(** market/orderbook.go:65-286 once more, now as programs that access memory
    operation by operation, so that goroutines sharing a book can be
    interleaved between any two accesses.  Each read of [ob.Asks] in the source
    is a read here, and each [range ob.Asks] reads the length once.
    Simplifications: a slice header (three words) and a row (three words) are
    read and written as a whole, [append] and [copy] are one operation, and
    memory is sequentially consistent.  A data-race-free Go program has exactly
    these behaviours; a racy one has these and more, so what is refuted here is
    refuted of Go. *)
From Verif Require Import Go.Outcome Go.Int64 Go.Slice Go.Float64 Go.Num Go.Heap Model.OrderBook Model.OrderBookHeap.
Open Scope list_scope.
Open Scope Z_scope.

Section Concurrent.
Context {F : Type} {N : GoFloat F}.
(** Extra capacity of each reallocation, as in Model/OrderBookHeap.v. *)
Variable spare : nat -> nat.

(** What the goroutines share: memory and the book ([*OrderBook]). *)
Record shared : Type := mkShared { sh_heap : heap (row F); sh_book : hbook }.

(** One access to memory. [ask] selects [ob.Asks] or [ob.Bids]. *)
Inductive op : Type -> Type :=
| Fetch (ask : bool) : op slice                     (* ob.Asks *)
| Save (ask : bool) (s : slice) : op unit          (* ob.Asks = s *)
| Depth : op Z                                     (* ob.MaxDepth *)
| Get (s : slice) (i : Z) : op (row F)             (* s[i] *)
| Put (s : slice) (i : Z) (r : row F) : op unit    (* s[i] = r *)
| Append (s : slice) (r : row F) : op slice        (* append(s, r) *)
| Concat (s t : slice) : op slice                  (* append(s, t...) *)
| Copy (dst src : slice) : op unit.                (* copy(dst, src) *)

(** [ob.Asks] or [ob.Bids], market/orderbook.go:14-15. *)
Definition side (ask : bool) (b : hbook) : slice := if ask then hb_asks b else hb_bids b.
(** Assignment to [ob.Asks] or [ob.Bids], market/orderbook.go:14-15. *)
Definition with_side (ask : bool) (b : hbook) (s : slice) : hbook :=
  if ask then mkHBook (hb_time b) s (hb_bids b) (hb_depth b)
  else mkHBook (hb_time b) (hb_asks b) s (hb_depth b).

(** What a single access of market/orderbook.go does to memory. *)
Definition exec {X} (o : op X) (m : shared) : go (X * shared) :=
  let h := sh_heap m in
  let b := sh_book m in
  match o in op X return go (X * shared) with
  | Fetch a => Ret (side a b, m)
  | Save a s => Ret (tt, mkShared h (with_side a b s))
  | Depth => Ret (hb_depth b, m)
  | Get s i => r <- get_elem h s i ;; Ret (r, m)
  | Put s i r => h1 <- set_elem h s i r ;; Ret (tt, mkShared h1 b)
  | Append s r => let '(h1, s1) := append_slice zero_row (spare (List.length h)) h s [r] in Ret (s1, mkShared h1 b)
  | Concat s t => let '(h1, s1) := append_slice zero_row 0 h s (view h t) in Ret (s1, mkShared h1 b)
  | Copy dst src => Ret (tt, mkShared (copy_slice h dst src) b)
  end.

(** What a goroutine still has to do in a call: nothing, panic, or an access
    and then something that depends on what it read. *)
Inductive prog (A : Type) : Type :=
| Done (a : A)
| Crash (p : panic)
| Do {X : Type} (o : op X) (k : X -> prog A).
Arguments Done {A} a.
Arguments Crash {A} p.
Arguments Do {A X} o k.

(** Statements in sequence. *)
Fixpoint after {A B} (m : prog A) (k : A -> prog B) : prog B :=
  match m with
  | Done a => k a
  | Crash p => Crash p
  | Do o f => Do o (fun x => after (f x) k)
  end.
Local Notation "x <~ m ;; k" := (after m (fun x => k)) (at level 61, m at next level, right associativity).

(** The call run without interference. *)
Fixpoint alone {A} (p : prog A) (m : shared) : go (A * shared) :=
  match p with
  | Done a => Ret (a, m)
  | Crash e => Panic e
  | Do o k => '(x, m1) <- exec o m ;; alone (k x) m1
  end.

(** One access as a program. *)
Definition act {X} (o : op X) : prog X := Do o (fun x => Done x).
(** A computation on local variables only. *)
Definition pure {A} (g : go A) : prog A := match g with Ret a => Done a | Panic p => Crash p end.
(** Reading [ob.Asks] or [ob.Bids], market/orderbook.go:14-15. *)
Definition load (ask : bool) : prog slice := act (Fetch ask).
(** Writing [ob.Asks] or [ob.Bids], market/orderbook.go:14-15. *)
Definition save (ask : bool) (s : slice) : prog unit := act (Save ask s).

(** [for i := range ob.Asks { if test(ob.Asks[i]) { return i } }]: [n] is the
    number of iterations left. *)
Fixpoint p_find (ask : bool) (test : row F -> bool) (n : nat) (i : Z) : prog (option Z) :=
  match n with
  | O => Done None
  | S n' =>
      s <~ load ask ;;
      r <~ act (Get s i) ;;
      if test r then Done (Some i) else p_find ask test n' (i + 1)
  end.
(** A [range] loop over [ob.Asks] or [ob.Bids] in market/orderbook.go:136-249, from its first iteration on. *)
Definition p_range (ask : bool) (test : row F -> bool) : prog (option Z) :=
  s <~ load ask ;; p_find ask test (s_len s) 0.

(** market/orderbook.go:65-73 *)
Definition p_limit_side (ask : bool) : prog unit :=
  s <~ load ask ;;
  d <~ act Depth ;;
  if d <? slen s then
    s1 <~ load ask ;;
    d1 <~ act Depth ;;
    t <~ pure (sub_slice s1 0 d1) ;;
    save ask t
  else Done tt.
(** market/orderbook.go:65-73, both sides. *)
Definition p_limit : prog unit := _ <~ p_limit_side true ;; p_limit_side false.

(** market/orderbook.go:91-134, one branch (compare [h_remove_side]). *)
Definition p_remove_side (ask : bool) (before skip : F -> F -> bool) (p : F) : prog unit :=
  s <~ load ask ;;
  if slen s =? 0 then Done tt else
  s0 <~ load ask ;;
  r0 <~ act (Get s0 0) ;;
  if before p (price r0) then Done tt
  else
    o <~ p_range ask (fun r => negb (skip (price r) p)) ;;
    match o with
    | Some i =>
        s1 <~ load ask ;;
        s2 <~ load ask ;;
        t <~ pure (sub_slice s2 (f2i (f64_min (i2f (i + 1)) (i2f (slen s1 - 1)))) (slen s2)) ;;
        save ask t
    | None => save ask nil_slice
    end.

(** [ob.Asks = append(ob.Asks, r)] *)
Definition p_append (ask : bool) (r : row F) : prog unit :=
  s <~ load ask ;;
  t <~ act (Append s r) ;;
  save ask t.
(** [ob.Asks[i] = r] *)
Definition p_put (ask : bool) (i : Z) (r : row F) : prog unit :=
  s <~ load ask ;;
  act (Put s i r).

(** market/orderbook.go:143-181 (196-234) without the calls of limit, one of
    which follows on every path (compare [h_insert]). *)
Definition p_insert (ask : bool) (better : F -> F -> bool) (new : row F) : prog unit :=
  let p := price new in
  o <~ p_range ask (fun r => feq (price r) p) ;;
  match o with
  | Some i => p_put ask i new
  | None =>
      s <~ load ask ;;
      if slen s =? 0 then p_append ask new
      else
        s1 <~ load ask ;;
        if slen s1 =? 1 then
          s2 <~ load ask ;;
          r0 <~ act (Get s2 0) ;;
          if better p (price r0) then
            s3 <~ load ask ;;
            s4 <~ load ask ;;
            r1 <~ act (Get s4 0) ;;
            t <~ act (Append s3 r1) ;;
            _ <~ save ask t ;;
            p_put ask 0 new
          else p_append ask new
        else
          o2 <~ p_range ask (fun r => better p (price r)) ;;
          match o2 with
          | Some i =>
              _ <~ p_append ask zero_row ;;
              s2 <~ load ask ;;
              dst <~ pure (sub_slice s2 (i + 1) (slen s2)) ;;
              s3 <~ load ask ;;
              src <~ pure (sub_slice s3 i (slen s3)) ;;
              _ <~ act (Copy dst src) ;;
              p_put ask i new
          | None => p_append ask new
          end
  end.

(** market/orderbook.go:183-190 (236-243), with removeElement (251-253) *)
Definition p_delete (ask : bool) (p : F) : prog unit :=
  o <~ p_range ask (fun r => feq (price r) p) ;;
  match o with
  | Some i =>
      s <~ load ask ;;
      hd <~ pure (sub_slice s 0 i) ;;
      tl <~ pure (sub_slice s (i + 1) (slen s)) ;;
      t <~ act (Concat hd tl) ;;
      _ <~ save ask t ;;
      p_limit
  | None => Done tt
  end.

(** market/orderbook.go:136-249 *)
Definition p_apply_update (u : update F) : prog (option err) :=
  let p := u_price u in
  let new := mkRow p (u_volume u) fzero in
  if String.eqb (u_side u) "ask" then
    if negb (feq (u_volume u) fzero) then
      _ <~ p_remove_side false (fun p q => flt q p) (fun q p => flt p q) p ;;
      _ <~ p_insert true (fun p q => flt p q) new ;;
      _ <~ p_limit ;;
      Done None
    else _ <~ p_delete true p ;; Done None
  else if String.eqb (u_side u) "bid" then
    if negb (feq (u_volume u) fzero) then
      _ <~ p_remove_side true (fun p q => flt p q) (fun q p => flt q p) p ;;
      _ <~ p_insert false (fun p q => flt q p) new ;;
      _ <~ p_limit ;;
      Done None
    else _ <~ p_delete false p ;; Done None
  else Done (Some bad_side).

(** market/orderbook.go:264-265: [ob.Asks[len(ob.Asks)-1]]. *)
Definition p_last (ask : bool) : prog (row F) :=
  s <~ load ask ;;
  s1 <~ load ask ;;
  act (Get s (slen s1 - 1)).
(** [ob.Asks[0]] or [ob.Bids[0]], market/orderbook.go:264-265. *)
Definition p_first (ask : bool) : prog (row F) :=
  s <~ load ask ;;
  act (Get s 0).
(** market/orderbook.go:268-274 (276-283) *)
Definition p_depth_in (ask : bool) (beyond : F -> F -> bool) (q : F) (last : row F) : prog (F * option err) :=
  o <~ p_range ask (fun r => beyond q (price r)) ;;
  match o with
  | Some k =>
      s <~ load ask ;;
      r <~ act (Get s (f2i (f64_max (i2f 0) (i2f (k - 1))))) ;;
      Done (price r, None)
  | None => Done (price last, None)
  end.
(** market/orderbook.go:257-286 *)
Definition p_get_depth (q : F) : prog (F * option err) :=
  if fle q fzero then Done (fzero, Some gd_invalid)
  else
    firstAsk <~ p_first true ;;
    lastAsk <~ p_last true ;;
    firstBid <~ p_first false ;;
    lastBid <~ p_last false ;;
    if fle (price firstAsk) q && fle q (price lastAsk) then p_depth_in true (fun q x => flt q x) q lastAsk
    else if fle (price lastBid) q && fle q (price firstBid) then p_depth_in false (fun q x => flt x q) q lastBid
    else Done (fzero, Some gd_notfound).

(** Calls made on the book, and what they return. *)
Inductive call : Type :=
| CUpdate (u : update F)
| CDepth (q : F).
(** What the calls return. *)
Inductive reply : Type :=
| RUpdate (e : option err)
| RDepth (r : F * option err).
(** The method bodies of market/orderbook.go by call. *)
Definition body (c : call) : prog reply :=
  match c with
  | CUpdate u => e <~ p_apply_update u ;; Done (RUpdate e)
  | CDepth q => r <~ p_get_depth q ;; Done (RDepth r)
  end.

(** A goroutine: the calls it will make, preceded by one in progress. *)
Inductive thread : Type :=
| Idle (todo : list call)
| Running (c : call) (p : prog reply) (todo : list call).

(** The whole program: shared memory, the goroutine holding the lock (if the
    program uses one), the goroutines, and the calls that have returned (with
    the number of the goroutine that made them). *)
Record config : Type := mkConfig {
  cf_shared : shared; cf_owner : option nat; cf_threads : list thread; cf_log : list (nat * call * reply) }.

(** No repository counterpart: the list of goroutines with the [i]-th replaced. *)
Fixpoint set_thread (i : nat) (t : thread) (l : list thread) : list thread :=
  match l, i with
  | [], _ => []
  | _ :: rest, O => t :: rest
  | x :: rest, S j => x :: set_thread j t rest
  end.

(** One step of goroutine [i].  With [locked] every call is made between Lock
    and Unlock of one sync.Mutex; a goroutine waiting for it does nothing.  A
    panic ends the program. *)
Definition cstep (locked : bool) (i : nat) (c : config) : go config :=
  match nth_error (cf_threads c) i with
  | None => Ret c
  | Some (Idle []) => Ret c
  | Some (Idle (k :: todo)) =>
      let go_on := mkConfig (cf_shared c) (if locked then Some i else None)
                     (set_thread i (Running k (body k) todo) (cf_threads c)) (cf_log c) in
      match cf_owner c with
      | Some _ => Ret c
      | None => Ret go_on
      end
  | Some (Running k (Done r) todo) =>
      Ret (mkConfig (cf_shared c) None (set_thread i (Idle todo) (cf_threads c)) (cf_log c ++ [(i, k, r)]))
  | Some (Running k (Crash e) todo) => Panic e
  | Some (Running k (Do o f) todo) =>
      '(x, m) <- exec o (cf_shared c) ;;
      Ret (mkConfig m (cf_owner c) (set_thread i (Running k (f x) todo) (cf_threads c)) (cf_log c))
  end.

(** The scheduler's choices, one goroutine after the other. *)
Fixpoint execute (locked : bool) (sched : list nat) (c : config) : go config :=
  match sched with
  | [] => Ret c
  | i :: rest => c1 <- cstep locked i c ;; execute locked rest c1
  end.

(** No repository counterpart: before the first step of a run. *)
Definition start (calls : list (list call)) (m : shared) : config :=
  mkConfig m None (map Idle calls) [].

End Concurrent.
Arguments shared F : clear implicits.
Arguments config F : clear implicits.
Arguments thread F : clear implicits.
Arguments call F : clear implicits.
Arguments reply F : clear implicits.
Arguments Done {F A} a.
Arguments Crash {F A} p.
Arguments Do {F A X} o k.
