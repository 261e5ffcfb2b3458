(** market/candle_load.go: candles saved to and loaded from a text file. *)
From Verif Require Import Go.Outcome Go.Int64 Go.Slice Go.Float64 Go.Text Model.Candle.
Open Scope string_scope.
Open Scope Z_scope.

(** The file system, as far as these functions see it. *)
Definition fs : Type := string -> option string.

(** A file created or replaced, as by os.Create at market/candle_load.go:16. *)
Definition fs_set (d : fs) (p : string) (content : string) : fs :=
  fun q => if String.eqb q p then Some content else d q.

(** market/candle_load.go:25, [fmt.Fprintln(f, candle)]: a struct value
    printed with %v (String has a pointer receiver, so it is not used). *)
Definition candle_line (c : candle f64) : string :=
  "{" ++ fmt_int (c_time c) ++ " " ++ fmt_v (c_open c) ++ " " ++ fmt_v (c_high c) ++ " " ++
  fmt_v (c_low c) ++ " " ++ fmt_v (c_close c) ++ " " ++ fmt_v (c_volume c) ++ "}".

(** fmt.Fprintln of one string, market/candle_load.go:25: the string and a newline. *)
Definition println (s : string) : string := s ++ String newline EmptyString.

(** The effect of one write: [None] all bytes are written, [Some k] the write
    fails after [k] bytes. *)
Definition write (fault : option nat) (s : string) : string :=
  match fault with
  | None => s
  | Some k => substring 0 k s
  end.

(** market/candle_load.go:24-26: the file content after the loop; [faults i]
    is the fate of the i-th write.  The results of Fprintln are dropped. *)
Fixpoint save_loop (faults : nat -> option nat) (i : nat) (cs : list (candle f64)) : string :=
  match cs with
  | [] => EmptyString
  | c :: rest => write (faults i) (println (candle_line c)) ++ save_loop faults (S i) rest
  end.

(** market/candle_load.go:13-29.  [create_err]: os.Create fails.  Not
    modelled: close errors (ignored by the code); a nil [candles] pointer: see
    Model/Pointers.v. *)
Definition save_candles (create_err : option string) (faults : nat -> option nat)
    (d : fs) (cs : list (candle f64)) (path : string) : fs * option err :=
  match create_err with
  | Some m => (d, Some (EWrap "market.SaveCandlesToFile" (EExt m)))
  | None => (fs_set d path (save_loop faults 0 cs), None)
  end.

(** No write at market/candle_load.go:25 fails. *)
Definition no_faults : nat -> option nat := fun _ => None.

(** bufio.MaxScanTokenSize: the scanner gives up on a line (its newline
    excluded) of this many bytes or more. *)
Definition max_token : Z := 65536.

(** len of a string, as at market/candle_load.go:47. *)
Definition str_len (s : string) : Z := Z.of_nat (String.length s).

(** [text[1:len(text)-1]], market/candle_load.go:47. *)
Definition strip_braces (t : string) : go string :=
  if str_len t - 1 <? 1 then Panic PSlice
  else Ret (substring 1 (String.length t - 2) t).

(** market/candle_load.go:32 *)
Definition load_op : string := "market.loadCandlesFromFile".
(** market/candle_load.go:53, 58, 63, 68, 73, 78 *)
Definition parse_fail (what : string) : err := EWrap load_op (EExt what).

(** market/candle_load.go:47-88: one line; [inr] is an early return. *)
Definition load_line (t : string) : go (candle f64 + err) :=
  line <- strip_braces t ;;
  let arr := split_space line in
  a0 <- index arr 0 ;;
  match parse_int 32 a0 with
  | inr _ => Ret (inr (parse_fail "strconv.ParseInt"))
  | inl t =>
  a1 <- index arr 1 ;;
  match parse_float a1 with
  | inr _ => Ret (inr (parse_fail "strconv.ParseFloat"))
  | inl o =>
  a2 <- index arr 2 ;;
  match parse_float a2 with
  | inr _ => Ret (inr (parse_fail "strconv.ParseFloat"))
  | inl h =>
  a3 <- index arr 3 ;;
  match parse_float a3 with
  | inr _ => Ret (inr (parse_fail "strconv.ParseFloat"))
  | inl l =>
  a4 <- index arr 4 ;;
  match parse_float a4 with
  | inr _ => Ret (inr (parse_fail "strconv.ParseFloat"))
  | inl c =>
  a5 <- index arr 5 ;;
  match parse_float a5 with
  | inr _ => Ret (inr (parse_fail "strconv.ParseFloat"))
  | inl v => Ret (inl (mkCandle t o h l c v))
  end end end end end end.

(** market/candle_load.go:43-91: the scan loop over the raw lines. *)
Fixpoint load_lines (ls : list string) (acc : list (candle f64))
  : go (list (candle f64) * option err) :=
  match ls with
  | [] => Ret (acc, None)
  | l :: rest =>
      if max_token <=? str_len l then Ret (acc, None)   (* ErrTooLong, not checked *)
      else
        r <- load_line (drop_cr l) ;;
        match r with
        | inr e => Ret ([], Some e)
        | inl c => load_lines rest (acc ++ [c])
        end
  end.

(** market/candle_load.go:31-94.  [open_err]: os.Open fails (also when the
    file does not exist); [read_ok = Some k]: reading fails after [k] bytes,
    which the scanner treats as the end of the input. *)
Definition load_candles (open_err : option string) (read_ok : option nat)
    (d : fs) (path : string) : go (list (candle f64) * option err) :=
  match open_err, d path with
  | Some m, _ => Ret ([], Some (EWrap load_op (EExt m)))
  | None, None => Ret ([], Some (EWrap load_op (EExt "os.Open: no such file")))
  | None, Some content => load_lines (raw_lines (write read_ok content)) []
  end.
