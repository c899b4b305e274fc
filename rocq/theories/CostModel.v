(** The JSON parsers once more, with a count of their work (codec/hyperjson and the two functions of codec that use it).

    Counted are: every byte of the buffer that is looked at, every byte that is written or moved in the buffer, every byte
    that a reader delivers, every call of [Read], and every byte of a token that is handed to a decoder (which looks at each
    once: bind.go:18-25, id.go:114-129, and the hash of the intern cache).  Not counted: growing slices and maps,
    clearing pooled memory, making the text of an error.  A result comes with the work done so far; [CostProofs] shows that leaving out the counts
    gives the functions of [JsonModel] and [CodecModel]. *)
From Verif Require Import Base SpanModel JsonModel CodecModel.

Definition cbind {A B} (r : pres A * nat) (f : A -> pstate -> pres B * nat) : pres B * nat :=
  match r.1 with
  | POk a st => ((f a st).1, r.2 + (f a st).2)%nat
  | PErr => (PErr, r.2) | PPanic => (PPanic, r.2) | PHang => (PHang, r.2)
  end.
Definition work {A} (n : nat) (r : pres A * nat) : pres A * nat := (r.1, n + r.2)%nat.

(** parser.go:411-443 [bufferMore]: the bytes moved to the front, one call of [Read], the bytes delivered. *)
Definition c_buffer_more (st : pstate) : pres unit * nat :=
  if p_eof st then (PErr, 0%nat) else
  if (0 <? p_tail st)%nat && negb ((p_tail st <=? p_head st)%nat && (p_head st <=? length (p_buf st))%nat) then (PPanic, 0%nat) else
  let '(st1, moved) :=
    if (0 <? p_tail st)%nat
    then (PState (p_src st) (splice (p_buf st) 0 (take (available st) (drop (p_tail st) (p_buf st)))) 0 (available st) false, available st)
    else (st, 0%nat) in
  if (length (p_buf st1) <? p_head st1)%nat then (PPanic, moved) else
  let '(got, err, src) := src_read (p_src st1) (length (p_buf st1) - p_head st1) in
  let buf := splice (p_buf st1) (p_head st1) got in
  let n := (moved + 1 + length got)%nat in
  match err with
  | REof =>
      match got with
      | [] => (PErr, n)
      | _ => (POk tt (PState src buf (p_tail st1) (p_head st1 + length got) true), n)
      end
  | ROther => (PErr, n)
  | RNil => (POk tt (PState src buf (p_tail st1) (p_head st1 + length got) false), n)
  end.

(** parser.go:262-266. *)
Fixpoint c_scan_space (k : nat) (buf : bytes) (t : nat) : option (nat * bool) * nat :=
  match k with
  | O => (Some (t, false), 0%nat)
  | S k' => match buf !! t with
            | None => (None, 0%nat)
            | Some b => if is_space b then let r := c_scan_space k' buf (S t) in (r.1, S r.2) else (Some (t, true), 1%nat)
            end
  end.

(** parser.go:259-272 [skipWhitespace]. *)
Fixpoint c_skip_whitespace (fuel : nat) (st : pstate) : pres unit * nat :=
  let s := c_scan_space (available st) (p_buf st) (p_tail st) in
  work s.2
  match s.1 with
  | None => (PPanic, 0%nat)
  | Some (t, true) => (POk tt (set_tail t st), 0%nat)
  | Some (t, false) =>
      match fuel with
      | O => (PHang, 0%nat)
      | S fuel' => cbind (c_buffer_more (set_tail t st)) (fun _ st' => c_skip_whitespace fuel' st')
      end
  end.

(** parser.go:380-382 [current]. *)
Definition c_current (st : pstate) : pres Z * nat := (current st, 1%nat).

(** parser.go:237-253. *)
Definition c_next_type (fuel : nat) (st : pstate) : pres jtype * nat :=
  cbind (c_skip_whitespace fuel st) (fun _ st =>
  cbind (c_current st) (fun b st =>
  (match symbol b with TError => PErr | t => POk t st end, 0%nat))).

(** parser.go:49-115. *)
Definition c_consume1 (ty : jtype) (st : pstate) : pres unit * nat :=
  cbind (c_current st) (fun b st =>
  (if decide (symbol b = ty) then POk tt (set_tail (S (p_tail st)) st) else PErr, 0%nat)).
Definition c_consume (fuel : nat) (ty : jtype) (st : pstate) : pres unit * nat :=
  cbind (c_skip_whitespace fuel st) (fun _ st => c_consume1 ty st).

(** string.go:8-73: bytes looked at and bytes written. *)
Fixpoint c_decode_in_place (fuel : nat) (mem : bytes) (idx w : nat) : dres * nat :=
  if (length mem <=? idx)%nat then (DecOk mem w, 0%nat) else
  match fuel with
  | O => (DecFuel, 0%nat)
  | S fuel' =>
      let more n (r : dres * nat) := (r.1, n + r.2)%nat in
      let append n ch k := if (w <? length mem)%nat then more (n + 1)%nat (k (<[w := ch]> mem)) else (DecPanic, n) in
      match mem !! idx with
      | None => (DecPanic, 0%nat)
      | Some ch =>
          if negb (ch =? ch_backslash) then append 1%nat ch (fun mem' => c_decode_in_place fuel' mem' (S idx) (S w))
          else if (length mem <=? idx + 1)%nat then (DecErr, 1%nat)
          else match mem !! (idx + 1)%nat with
          | None => (DecPanic, 1%nat)
          | Some ch =>
              if negb (ch =? 117) then append 2%nat ch (fun mem' => c_decode_in_place fuel' mem' (idx + 2)%nat (S w))
              else if (length mem <=? idx + 1 + 4)%nat then (DecErr, 2%nat)
              else match mem !! (idx + 2)%nat, mem !! (idx + 3)%nat, mem !! (idx + 4)%nat, mem !! (idx + 5)%nat with
              | Some a, Some b, Some c, Some d =>
                  match hex_digit a, hex_digit b, hex_digit c, hex_digit d with
                  | Some a, Some b, Some c, Some d =>
                      if (length mem <? w + 4)%nat then (DecPanic, 6%nat) else
                      let enc := encode_rune (((a * 16 + b) * 16 + c) * 16 + d) in
                      more (6 + length enc)%nat (c_decode_in_place fuel' (splice mem w enc) (idx + 6)%nat (w + length enc)%nat)
                  | _, _, _, _ => (DecErr, 6%nat)
                  end
              | _, _, _, _ => (DecPanic, 6%nat)
              end
          end
      end
  end.

(** parser.go:160-191. *)
Fixpoint c_scan_string (k : nat) (buf : bytes) (t n : nat) (esc has : bool) : sscan * nat :=
  match k with
  | O => (SMore esc has, 0%nat)
  | S k' =>
      match buf !! (t + n)%nat with
      | None => (SPanic, 0%nat)
      | Some ch =>
          let more (r : sscan * nat) := (r.1, S r.2) in
          if esc then more (c_scan_string k' buf t (S n) false has)
          else if ch =? ch_backslash then more (c_scan_string k' buf t (S n) true true)
          else if ch =? ch_quote then (SFound n has, 1%nat)
          else more (c_scan_string k' buf t (S n) false has)
      end
  end.

(** parser.go:158-196. *)
Fixpoint c_read_string_loop (fuel : nat) (st : pstate) (n : nat) (esc has : bool) : pres token * nat :=
  let s := c_scan_string (available st - n) (p_buf st) (p_tail st) n esc has in
  work s.2
  match s.1 with
  | SPanic => (PPanic, 0%nat)
  | SFound n has =>
      if (length (p_buf st) <? p_tail st + n)%nat then (PPanic, 0%nat) else
      let value := take n (drop (p_tail st) (p_buf st)) in
      if has : bool then
        let d := c_decode_in_place n value 0 0 in
        (match d.1 with
         | DecOk mem w =>
             POk (Token TString (take w mem))
                 (PState (p_src st) (splice (p_buf st) (p_tail st) mem) (p_tail st + n + 1) (p_head st) (p_eof st))
         | DecErr => PErr
         | DecPanic => PPanic
         | DecFuel => PHang
         end, d.2)
      else (POk (Token TString value) (set_tail (p_tail st + n + 1) st), 0%nat)
  | SMore esc has =>
      match fuel with
      | O => (PHang, 0%nat)
      | S fuel' =>
          let n' := (n + (available st - n))%nat in
          cbind (c_buffer_more st) (fun _ st' => c_read_string_loop fuel' st' n' esc has)
      end
  end.

(** parser.go:141-197. *)
Definition c_read_string (fuel : nat) (st : pstate) : pres token * nat :=
  cbind (c_current st) (fun ch st =>
  if negb (ch =? ch_quote) then (PErr, 0%nat)
  else c_read_string_loop fuel (set_tail (S (p_tail st)) st) 0 false false).
Definition c_ReadString (fuel : nat) (st : pstate) : pres token * nat :=
  cbind (c_skip_whitespace fuel st) (fun _ st => c_read_string fuel st).

(** parser.go:216-229. *)
Fixpoint c_scan_number (k : nat) (buf : bytes) (t n : nat) : nscan * nat :=
  match k with
  | O => (NMore, 0%nat)
  | S k' => match buf !! (t + n)%nat with
            | None => (NPanic, 0%nat)
            | Some ch => if is_number_char ch then let r := c_scan_number k' buf t (S n) in (r.1, S r.2) else (NFound n, 1%nat)
            end
  end.

Fixpoint c_read_number_loop (fuel : nat) (st : pstate) (n : nat) : pres token * nat :=
  let s := c_scan_number (available st - n) (p_buf st) (p_tail st) n in
  work s.2
  match s.1 with
  | NPanic => (PPanic, 0%nat)
  | NFound n =>
      if (length (p_buf st) <? p_tail st + n)%nat then (PPanic, 0%nat) else
      (POk (Token TNumber (take n (drop (p_tail st) (p_buf st)))) (set_tail (p_tail st + n) st), 0%nat)
  | NMore =>
      match fuel with
      | O => (PHang, 0%nat)
      | S fuel' =>
          let n' := (n + (available st - n))%nat in
          cbind (c_buffer_more st) (fun _ st' => c_read_number_loop fuel' st' n')
      end
  end.

(** parser.go:199-235. *)
Definition c_read_number (fuel : nat) (st : pstate) : pres token * nat :=
  cbind (c_current st) (fun ch st => if negb (is_digit ch) then (PErr, 0%nat) else c_read_number_loop fuel st 1).
Definition c_ReadNumber (fuel : nat) (st : pstate) : pres token * nat :=
  cbind (c_skip_whitespace fuel st) (fun _ st => c_read_number fuel st).

(** parser.go:384-403 [require]; a larger buffer costs its length and the bytes copied. *)
Fixpoint c_require (fuel : nat) (st : pstate) (n : nat) : pres unit * nat :=
  if (n <=? available st)%nat then (POk tt st, 0%nat) else
  match fuel with
  | O => (PHang, 0%nat)
  | S fuel' =>
      let missing := (n - available st)%nat in
      let free := (length (p_buf st) - available st)%nat in
      if (free <? missing)%nat && (available st + n <? length (p_buf st))%nat then (PPanic, 0%nat) else
      let '(st1, copied) :=
        if (free <? missing)%nat
        then (PState (p_src st) (splice (replicate (available st + n) 0) 0 (p_buf st)) (p_tail st) (p_head st) (p_eof st),
              (available st + n + length (p_buf st))%nat)
        else (st, 0%nat) in
      work copied (cbind (c_buffer_more st1) (fun _ st' => c_require fuel' st' n))
  end.

(** parser.go:284-324. *)
Definition c_read_n (fuel : nat) (st : pstate) (ty : jtype) (first : Z) (n : nat) : pres token * nat :=
  cbind (c_require fuel st n) (fun _ st =>
  cbind (c_current st) (fun ch st =>
  (if negb (ch =? first) then PErr else
   if (length (p_buf st) <? p_tail st + n)%nat then PPanic else
   POk (Token ty (take n (drop (p_tail st) (p_buf st)))) (set_tail (p_tail st + n) st), 0%nat))).
Definition c_read_null (fuel : nat) (st : pstate) : pres token * nat := c_read_n fuel st TNull 110 4.
Definition c_read_boolean (fuel : nat) (st : pstate) : pres token * nat :=
  cbind (c_current st) (fun ch st => if ch =? 116 then c_read_n fuel st TBool 116 4 else c_read_n fuel st TBool 102 5).

(** parser.go:117-139 [ReadLiteral]. *)
Definition c_ReadLiteral (fuel : nat) (st : pstate) : pres token * nat :=
  cbind (c_next_type fuel st) (fun next st =>
  match next with
  | TString => c_read_string fuel st
  | TNumber => c_read_number fuel st
  | TBool => c_read_boolean fuel st
  | TNull => c_read_null fuel st
  | _ => (PErr, 0%nat)
  end).

(** parser_skip.go. *)
Definition c_done (r : pres token * nat) : pres unit * nat := cbind r (fun _ st => (POk tt st, 0%nat)).
Fixpoint c_skip (depth : nat) (fuel : nat) (next : jtype) (st : pstate) {struct depth} : pres unit * nat :=
  match depth with
  | O => (PHang, 0%nat)
  | S depth =>
      match next with
      | TString => c_done (c_read_string fuel st)
      | TNumber => c_done (c_read_number fuel st)
      | TBool => c_done (c_read_boolean fuel st)
      | TNull => c_done (c_read_null fuel st)
      | TObjBegin => cbind (c_consume1 TObjBegin st) (fun _ st => c_skip_members depth fuel st)
      | TArrBegin => cbind (c_consume1 TArrBegin st) (fun _ st => c_skip_elements depth fuel st)
      | _ => (PErr, 0%nat)
      end
  end
with c_skip_elements (depth : nat) (fuel : nat) (st : pstate) {struct depth} : pres unit * nat :=
  match depth with
  | O => (PHang, 0%nat)
  | S depth =>
      cbind (c_next_type fuel st) (fun next st =>
      if decide (next = TArrEnd) then c_consume1 TArrEnd st
      else cbind (c_skip depth fuel next st) (fun _ st => c_skip_elements depth fuel st))
  end
with c_skip_members (depth : nat) (fuel : nat) (st : pstate) {struct depth} : pres unit * nat :=
  match depth with
  | O => (PHang, 0%nat)
  | S depth =>
      cbind (c_next_type fuel st) (fun next st =>
      if decide (next = TObjEnd) then c_consume1 TObjEnd st
      else cbind (c_read_string fuel st) (fun _ st =>
           cbind (c_next_type fuel st) (fun next st =>
           cbind (c_skip depth fuel next st) (fun _ st => c_skip_members depth fuel st))))
  end.
Definition c_Skip (fuel : nat) (st : pstate) : pres unit * nat :=
  cbind (c_next_type fuel st) (fun next st => c_skip fuel fuel next st).

(** The exported methods; a token is handed to the decoder. *)
Definition c_token (r : pres token * nat) : pres token * nat := cbind r (fun t st => (POk t st, length (t_val t))).
Definition c_run_op (fuel : nat) (o : op) (st : pstate) : pres token * nat :=
  let unit r := cbind r (fun (_ : unit) st => (POk (Token TNull []) st, 0%nat)) in
  match o with
  | ONext => cbind (c_next_type fuel st) (fun t st => (POk (Token t []) st, 0%nat))
  | OObjBegin => unit (c_consume fuel TObjBegin st)
  | OObjEnd => unit (c_consume fuel TObjEnd st)
  | OArrBegin => unit (c_consume fuel TArrBegin st)
  | OArrEnd => unit (c_consume fuel TArrEnd st)
  | OString => c_token (c_ReadString fuel st)
  | ONumber => c_token (c_ReadNumber fuel st)
  | OLiteral => c_token (c_ReadLiteral fuel st)
  | OSkip => unit (c_Skip fuel st)
  end.

Fixpoint c_exec {A} (fuel : nat) (p : prog A) (st : pstate) : xres A * nat :=
  match p with
  | Ret a => (XDone a, 0%nat)
  | OutOfFuel => (XHang, 0%nat)
  | Call o k e =>
      let r := c_run_op fuel o st in
      match r.1 with
      | POk t st' => let x := c_exec fuel (k t) st' in (x.1, r.2 + x.2)%nat
      | PErr => (XDone e, r.2)
      | PPanic => (XPanic, r.2)
      | PHang => (XHang, r.2)
      end
  end.

(** codec/json-v2.go:31-56 and codec/json-v1.go:50-79. *)
Definition c_ParseJsonV2 (fuel : nat) (buf : bytes) (input : rsrc) : xres (option (list span)) * nat :=
  let r := c_exec fuel (parse_v2_prog fuel) (new_parser input buf) in (xmap v2_result r.1, r.2).
Definition c_ParseJsonV1 (fuel : nat) (buf : bytes) (pool : list spanV1) (input : rsrc) : xres (option (list span) * list spanV1) * nat :=
  let r := c_exec fuel (parse_v1_prog fuel pool) (new_parser input buf) in (xmap (v1_result (length pool)) r.1, r.2).
