(** Model of codec/hyperjson: the buffered JSON parser.

    Byte positions are [nat]; Go's [int] arithmetic on them never wraps (a buffer is at most a few KiB).
    An index or slice expression that is out of range is the explicit outcome [PPanic]; a loop whose bound is
    exhausted is [PHang] (bounds are the [fuel] arguments; a loop that hangs does so for every bound).
    Error values are not distinguished: every error is [PErr]. *)
From Verif Require Import Base.

(* ---------- the reader ---------- *)

(** An [io.Reader]: the bytes it will deliver, in the pieces in which it is willing to deliver them (a piece may
    be empty), and how it ends; an eager end is reported together with the last piece. *)
Inductive rend := EndEOF (eager : bool) | EndErr (eager : bool).
Record rsrc := Src { r_chunks : list bytes; r_end : rend }.
Inductive rerr := RNil | REof | ROther.

Definition end_err (e : rend) : rerr := match e with EndEOF _ => REof | EndErr _ => ROther end.
Definition end_eager (e : rend) : bool := match e with EndEOF b => b | EndErr b => b end.

(** [Read] with room for [m] bytes: the bytes, the error, the reader afterwards.  Reading zero bytes while data is
    left returns (0, nil), as the readers of net/http and bytes do. *)
Definition src_read (s : rsrc) (m : nat) : bytes * rerr * rsrc :=
  match r_chunks s with
  | [] => ([], end_err (r_end s), s)
  | c :: cs =>
      let rest := match drop m c with [] => cs | c' => c' :: cs end in
      (take m c, match rest with [] => if end_eager (r_end s) then end_err (r_end s) else RNil | _ => RNil end,
       Src rest (r_end s))
  end.

(* ---------- parser state ---------- *)

(** codec/hyperjson/parser.go:25-31 [Parser].  A nil buffer is replaced by 4096 zero bytes before anything else
    looks at it (416-418), so it is modelled as that buffer. *)
Record pstate := PState { p_src : rsrc; p_buf : bytes; p_tail : nat; p_head : nat; p_eof : bool }.

(** parser.go:33-38 [NewWithReader]. *)
Definition new_parser (r : rsrc) (buf : bytes) : pstate := PState r buf 0 0 false.
(** parser.go:40-47 [NewWithBytes]. *)
Definition new_parser_bytes (buf : bytes) : pstate := PState (Src [] (EndEOF false)) buf 0 (length buf) true.

Inductive pres (A : Type) := POk (a : A) (st : pstate) | PErr | PPanic | PHang.
Arguments POk {A}. Arguments PErr {A}. Arguments PPanic {A}. Arguments PHang {A}.
Definition pbind {A B} (r : pres A) (f : A -> pstate -> pres B) : pres B :=
  match r with POk a st => f a st | PErr => PErr | PPanic => PPanic | PHang => PHang end.

(** parser.go:9-23 [Type]. *)
Inductive jtype := TError | TNull | TObjBegin | TObjEnd | TArrBegin | TArrEnd | TBool | TNumber | TString | TSpace.
Global Instance jtype_eq_dec : EqDecision jtype.
Proof. solve_decision. Defined.

(** token.go:3-8 [Token]. *)
Record token := Token { t_type : jtype; t_val : bytes }.

(** parser.go:326-361 [symbolTable]. *)
Definition symbol (b : Z) : jtype :=
  if (9 <=? b) && (b <=? 13) then TSpace
  else if (b =? 32) || (b =? 58) || (b =? 44) || (b =? 133) || (b =? 160) then TSpace
  else if (b =? 45) || ((48 <=? b) && (b <=? 57)) then TNumber
  else if b =? 110 then TNull
  else if (b =? 116) || (b =? 102) then TBool
  else if b =? 34 then TString
  else if b =? 123 then TObjBegin
  else if b =? 125 then TObjEnd
  else if b =? 91 then TArrBegin
  else if b =? 93 then TArrEnd
  else TError.

(** parser.go:363-369. *)
Definition is_space (b : Z) : bool := bool_decide (symbol b = TSpace).
Definition is_digit (b : Z) : bool := bool_decide (symbol b = TNumber).

(** parser.go:406-408 [available]. *)
Definition available (st : pstate) : nat := (p_head st - p_tail st)%nat.
Definition set_tail (t : nat) (st : pstate) : pstate := PState (p_src st) (p_buf st) t (p_head st) (p_eof st).

(** parser.go:380-382 [current]. *)
Definition current (st : pstate) : pres Z :=
  match p_buf st !! p_tail st with Some b => POk b st | None => PPanic end.

(** Overwrites the bytes of [buf] from position [i] with [bs]. *)
Definition splice (buf : bytes) (i : nat) (bs : bytes) : bytes := take i buf ++ bs ++ drop (i + length bs) buf.

(** parser.go:411-443 [bufferMore]. *)
Definition buffer_more (st : pstate) : pres unit :=
  if p_eof st then PErr else
  (* 421-426: [buffer[:n]] and [buffer[tail:head]] *)
  if (0 <? p_tail st)%nat && negb ((p_tail st <=? p_head st)%nat && (p_head st <=? length (p_buf st))%nat) then PPanic else
  let st1 := if (0 <? p_tail st)%nat
             then PState (p_src st) (splice (p_buf st) 0 (take (available st) (drop (p_tail st) (p_buf st)))) 0 (available st) false
             else st in
  (* 429: [buffer[head:]] *)
  if (length (p_buf st1) <? p_head st1)%nat then PPanic else
  let '(got, err, src) := src_read (p_src st1) (length (p_buf st1) - p_head st1) in
  let buf := splice (p_buf st1) (p_head st1) got in
  match err with
  | REof =>
      match got with
      | [] => PErr
      | _ => POk tt (PState src buf (p_tail st1) (p_head st1 + length got) true)
      end
  | ROther => PErr
  | RNil => POk tt (PState src buf (p_tail st1) (p_head st1 + length got) false)
  end.

(** parser.go:262-266: the position after skipping at most [k] bytes from [t], and whether it is not a space. *)
Fixpoint scan_space (k : nat) (buf : bytes) (t : nat) : option (nat * bool) :=
  match k with
  | O => Some (t, false)
  | S k' => match buf !! t with
            | None => None
            | Some b => if is_space b then scan_space k' buf (S t) else Some (t, true)
            end
  end.

(** parser.go:259-272 [skipWhitespace]. *)
Fixpoint skip_whitespace (fuel : nat) (st : pstate) : pres unit :=
  match scan_space (available st) (p_buf st) (p_tail st) with
  | None => PPanic
  | Some (t, true) => POk tt (set_tail t st)
  | Some (t, false) =>
      match fuel with
      | O => PHang
      | S fuel' => pbind (buffer_more (set_tail t st)) (fun _ st' => skip_whitespace fuel' st')
      end
  end.

(** parser.go:237-253 [NextType] and [currentType]. *)
Definition next_type (fuel : nat) (st : pstate) : pres jtype :=
  pbind (skip_whitespace fuel st) (fun _ st =>
  pbind (current st) (fun b st =>
  match symbol b with TError => PErr | t => POk t st end)).

(** parser.go:49-115: the eight methods that consume one of the four brackets.  The unexported ones do not skip
    whitespace. *)
Definition consume1 (ty : jtype) (st : pstate) : pres unit :=
  pbind (current st) (fun b st =>
  if decide (symbol b = ty) then POk tt (set_tail (S (p_tail st)) st) else PErr).
Definition consume (fuel : nat) (ty : jtype) (st : pstate) : pres unit :=
  pbind (skip_whitespace fuel st) (fun _ st => consume1 ty st).

(* ---------- strings ---------- *)

Definition ch_quote : Z := 34.
Definition ch_backslash : Z := 92.

(** unicode/utf8 [EncodeRune] for 0 <= r <= 0xFFFF (the only values decodeUnicodeChar produces). *)
Definition encode_rune (r : Z) : bytes :=
  if r <=? 127 then [r]
  else if r <=? 2047 then [Z.lor 192 (Z.shiftr r 6); Z.lor 128 (Z.land r 63)]
  else if (55296 <=? r) && (r <=? 57343) then [239; 191; 189]
  else [Z.lor 224 (Z.shiftr r 12); Z.lor 128 (Z.land (Z.shiftr r 6) 63); Z.lor 128 (Z.land r 63)].

(** string.go:58-66: value of a hexadecimal digit. *)
Definition hex_digit (c : Z) : option Z :=
  if (48 <=? c) && (c <=? 57) then Some (c - 48)
  else if (97 <=? c) && (c <=? 102) then Some (c - 97 + 10)
  else if (65 <=? c) && (c <=? 70) then Some (c - 65 + 10)
  else None.

(** Outcome of the in-place decoder: the memory of the token and the length of the decoded string. *)
Inductive dres := DecOk (mem : bytes) (n : nat) | DecErr | DecPanic | DecFuel.

(** string.go:8-51 [decodeStringInPlace] and 53-73 [decodeUnicodeChar] on the memory [mem] of the token: [idx] is
    the read position, [w] the length of [decoded], which lives in the same memory.  An [append] beyond the
    capacity would allocate and is a [DecPanic] here, as is a slice expression out of range. *)
Fixpoint decode_in_place (fuel : nat) (mem : bytes) (idx w : nat) : dres :=
  if (length mem <=? idx)%nat then DecOk mem w else
  match fuel with
  | O => DecFuel
  | S fuel' =>
      let append ch k := if (w <? length mem)%nat then k (<[w := ch]> mem) else DecPanic in
      match mem !! idx with
      | None => DecPanic
      | Some ch =>
          (* 13-16 *)
          if negb (ch =? ch_backslash) then append ch (fun mem' => decode_in_place fuel' mem' (S idx) (S w))
          (* 18-20 *)
          else if (length mem <=? idx + 1)%nat then DecErr
          else match mem !! (idx + 1)%nat with
          | None => DecPanic
          | Some ch =>
              (* 26-30 *)
              if negb (ch =? 117) then append ch (fun mem' => decode_in_place fuel' mem' (idx + 2)%nat (S w))
              (* 32-34 *)
              else if (length mem <=? idx + 1 + 4)%nat then DecErr
              else match mem !! (idx + 2)%nat, mem !! (idx + 3)%nat, mem !! (idx + 4)%nat, mem !! (idx + 5)%nat with
              | Some a, Some b, Some c, Some d =>
                  match hex_digit a, hex_digit b, hex_digit c, hex_digit d with
                  | Some a, Some b, Some c, Some d =>
                      (* 71-73 *)
                      if (length mem <? w + 4)%nat then DecPanic else
                      let enc := encode_rune (((a * 16 + b) * 16 + c) * 16 + d) in
                      decode_in_place fuel' (splice mem w enc) (idx + 6)%nat (w + length enc)%nat
                  | _, _, _, _ => DecErr
                  end
              | _, _, _, _ => DecPanic
              end
          end
      end
  end.

(** parser.go:160-191: scanning [k] more bytes of the string that starts at [t], from offset [n]. *)
Inductive sscan := SFound (n : nat) (has : bool) | SMore (esc has : bool) | SPanic.
Fixpoint scan_string (k : nat) (buf : bytes) (t n : nat) (esc has : bool) : sscan :=
  match k with
  | O => SMore esc has
  | S k' =>
      match buf !! (t + n)%nat with
      | None => SPanic
      | Some ch =>
          if esc then scan_string k' buf t (S n) false has
          else if ch =? ch_backslash then scan_string k' buf t (S n) true true
          else if ch =? ch_quote then SFound n has
          else scan_string k' buf t (S n) false has
      end
  end.

(** parser.go:158-196: the loop of [readString]; [n] bytes have been looked at. *)
Fixpoint read_string_loop (fuel : nat) (st : pstate) (n : nat) (esc has : bool) : pres token :=
  match scan_string (available st - n) (p_buf st) (p_tail st) n esc has with
  | SPanic => PPanic
  | SFound n has =>
      if (length (p_buf st) <? p_tail st + n)%nat then PPanic else
      let value := take n (drop (p_tail st) (p_buf st)) in
      if has : bool then
        match decode_in_place n value 0 0 with
        | DecOk mem w =>
            POk (Token TString (take w mem))
                (PState (p_src st) (splice (p_buf st) (p_tail st) mem) (p_tail st + n + 1) (p_head st) (p_eof st))
        | DecErr => PErr
        | DecPanic => PPanic
        | DecFuel => PHang
        end
      else POk (Token TString value) (set_tail (p_tail st + n + 1) st)
  | SMore esc has =>
      match fuel with
      | O => PHang
      | S fuel' =>
          let n' := (n + (available st - n))%nat in
          pbind (buffer_more st) (fun _ st' => read_string_loop fuel' st' n' esc has)
      end
  end.

(** parser.go:149-197 [readString]. *)
Definition read_string (fuel : nat) (st : pstate) : pres token :=
  pbind (current st) (fun ch st =>
  if negb (ch =? ch_quote) then PErr
  else read_string_loop fuel (set_tail (S (p_tail st)) st) 0 false false).
(** parser.go:141-147 [ReadString]. *)
Definition ReadString (fuel : nat) (st : pstate) : pres token :=
  pbind (skip_whitespace fuel st) (fun _ st => read_string fuel st).

(* ---------- numbers and literals ---------- *)

(** parser.go:219: a byte that continues a number. *)
Definition is_number_char (b : Z) : bool := is_digit b || (b =? 46) || (b =? 101).

(** parser.go:216-229. *)
Inductive nscan := NFound (n : nat) | NMore | NPanic.
Fixpoint scan_number (k : nat) (buf : bytes) (t n : nat) : nscan :=
  match k with
  | O => NMore
  | S k' => match buf !! (t + n)%nat with
            | None => NPanic
            | Some ch => if is_number_char ch then scan_number k' buf t (S n) else NFound n
            end
  end.

Fixpoint read_number_loop (fuel : nat) (st : pstate) (n : nat) : pres token :=
  match scan_number (available st - n) (p_buf st) (p_tail st) n with
  | NPanic => PPanic
  | NFound n =>
      if (length (p_buf st) <? p_tail st + n)%nat then PPanic else
      POk (Token TNumber (take n (drop (p_tail st) (p_buf st)))) (set_tail (p_tail st + n) st)
  | NMore =>
      match fuel with
      | O => PHang
      | S fuel' =>
          let n' := (n + (available st - n))%nat in
          pbind (buffer_more st) (fun _ st' => read_number_loop fuel' st' n')
      end
  end.

(** parser.go:207-235 [readNumber]. *)
Definition read_number (fuel : nat) (st : pstate) : pres token :=
  pbind (current st) (fun ch st => if negb (is_digit ch) then PErr else read_number_loop fuel st 1).
(** parser.go:199-205 [ReadNumber]. *)
Definition ReadNumber (fuel : nat) (st : pstate) : pres token :=
  pbind (skip_whitespace fuel st) (fun _ st => read_number fuel st).

(** parser.go:384-403 [require]. *)
Fixpoint require (fuel : nat) (st : pstate) (n : nat) : pres unit :=
  if (n <=? available st)%nat then POk tt st else
  match fuel with
  | O => PHang
  | S fuel' =>
      let missing := (n - available st)%nat in
      let free := (length (p_buf st) - available st)%nat in
      if (free <? missing)%nat && (available st + n <? length (p_buf st))%nat then PPanic else
      let st1 := if (free <? missing)%nat
                 then PState (p_src st) (splice (replicate (available st + n) 0) 0 (p_buf st)) (p_tail st) (p_head st) (p_eof st)
                 else st in
      pbind (buffer_more st1) (fun _ st' => require fuel' st' n)
  end.

(** parser.go:284-296 [readN]. *)
Definition read_n (fuel : nat) (st : pstate) (ty : jtype) (first : Z) (n : nat) : pres token :=
  pbind (require fuel st n) (fun _ st =>
  pbind (current st) (fun ch st =>
  if negb (ch =? first) then PErr else
  if (length (p_buf st) <? p_tail st + n)%nat then PPanic else
  POk (Token ty (take n (drop (p_tail st) (p_buf st)))) (set_tail (p_tail st + n) st))).

(** parser.go:306-308 [readNull] and 318-324 [readBoolean]. *)
Definition read_null (fuel : nat) (st : pstate) : pres token := read_n fuel st TNull 110 4.
Definition read_boolean (fuel : nat) (st : pstate) : pres token :=
  pbind (current st) (fun ch st => if ch =? 116 then read_n fuel st TBool 116 4 else read_n fuel st TBool 102 5).

(** parser.go:117-139 [ReadLiteral]. *)
Definition ReadLiteral (fuel : nat) (st : pstate) : pres token :=
  pbind (next_type fuel st) (fun next st =>
  match next with
  | TString => read_string fuel st
  | TNumber => read_number fuel st
  | TBool => read_boolean fuel st
  | TNull => read_null fuel st
  | _ => PErr
  end).

(* ---------- skipping ---------- *)

(** parser_skip.go:14-90 [skip], [skipArray] and [skipObject].  [fuel] bounds the loops of the tokens, [depth] the
    recursion together with the loops over elements (Go's stack growth is not modelled). *)
Fixpoint skip (depth : nat) (fuel : nat) (next : jtype) (st : pstate) {struct depth} : pres unit :=
  match depth with
  | O => PHang
  | S depth =>
      match next with
      | TString => pbind (read_string fuel st) (fun _ st => POk tt st)
      | TNumber => pbind (read_number fuel st) (fun _ st => POk tt st)
      | TBool => pbind (read_boolean fuel st) (fun _ st => POk tt st)
      | TNull => pbind (read_null fuel st) (fun _ st => POk tt st)
      | TObjBegin => pbind (consume1 TObjBegin st) (fun _ st => skip_members depth fuel st)
      | TArrBegin => pbind (consume1 TArrBegin st) (fun _ st => skip_elements depth fuel st)
      | _ => PErr
      end
  end
with skip_elements (depth : nat) (fuel : nat) (st : pstate) {struct depth} : pres unit :=
  match depth with
  | O => PHang
  | S depth =>
      pbind (next_type fuel st) (fun next st =>
      if decide (next = TArrEnd) then consume1 TArrEnd st
      else pbind (skip depth fuel next st) (fun _ st => skip_elements depth fuel st))
  end
with skip_members (depth : nat) (fuel : nat) (st : pstate) {struct depth} : pres unit :=
  match depth with
  | O => PHang
  | S depth =>
      pbind (next_type fuel st) (fun next st =>
      if decide (next = TObjEnd) then consume1 TObjEnd st
      else pbind (read_string fuel st) (fun _ st =>
           pbind (next_type fuel st) (fun next st =>
           pbind (skip depth fuel next st) (fun _ st => skip_members depth fuel st))))
  end.

(** parser_skip.go:5-12 [Skip]. *)
Definition Skip (fuel : nat) (st : pstate) : pres unit :=
  pbind (next_type fuel st) (fun next st => skip fuel fuel next st).
