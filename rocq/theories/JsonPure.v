(** The parser on a plain list of remaining bytes: what the buffered parser computes, independently of reads. *)
From Verif Require Import Base JsonModel CodecModel.

Inductive qres (A : Type) := QOk (a : A) (l : bytes) | QErr | QHang | QFuel.
Arguments QOk {A}. Arguments QErr {A}. Arguments QHang {A}. Arguments QFuel {A}.
Definition qbind {A B} (r : qres A) (f : A -> bytes -> qres B) : qres B :=
  match r with QOk a l => f a l | QErr => QErr | QHang => QHang | QFuel => QFuel end.

Fixpoint drop_space (l : bytes) : bytes :=
  match l with [] => [] | b :: l' => if is_space b then drop_space l' else l end.
Definition q_space (l : bytes) : qres unit :=
  match drop_space l with [] => QErr | l' => QOk tt l' end.
Definition q_current (l : bytes) : qres Z := match l with [] => QErr | b :: _ => QOk b l end.
Definition q_next (l : bytes) : qres jtype :=
  qbind (q_space l) (fun _ l => qbind (q_current l) (fun b l => match symbol b with TError => QErr | t => QOk t l end)).
Definition q_consume1 (ty : jtype) (l : bytes) : qres unit :=
  match l with [] => QErr | b :: l' => if decide (symbol b = ty) then QOk tt l' else QErr end.
Definition q_consume (ty : jtype) (l : bytes) : qres unit := qbind (q_space l) (fun _ l => q_consume1 ty l).

(** Pure unescaping. *)
Fixpoint unescape (l : bytes) : option bytes :=
  match l with
  | [] => Some []
  | c :: l1 =>
      if negb (c =? 92) then option_map (cons c) (unescape l1)
      else match l1 with
           | [] => None
           | c :: l2 =>
               if negb (c =? 117) then option_map (cons c) (unescape l2)
               else match l2 with
                    | a :: b :: c :: d :: l3 =>
                        match hex_digit a, hex_digit b, hex_digit c, hex_digit d with
                        | Some a, Some b, Some c, Some d =>
                            option_map (app (encode_rune (((a * 16 + b) * 16 + c) * 16 + d))) (unescape l3)
                        | _, _, _, _ => None
                        end
                    | _ => None
                    end
           end
  end.

(** Position of the closing quote. *)
Fixpoint close (l : bytes) (n : nat) (esc has : bool) : option (nat * bool) :=
  match l with
  | [] => None
  | ch :: l' =>
      if esc then close l' (S n) false has
      else if ch =? ch_backslash then close l' (S n) true true
      else if ch =? ch_quote then Some (n, has)
      else close l' (S n) false has
  end.

Definition q_string_body (cap : nat) (l : bytes) : qres token :=
  match close l 0 false false with
  | Some (n, has) =>
      if (n <? cap)%nat then
        if has : bool then
          match unescape (take n l) with Some v => QOk (Token TString v) (drop (n + 1) l) | None => QErr end
        else QOk (Token TString (take n l)) (drop (n + 1) l)
      else QHang
  | None => if (length l <=? cap)%nat then QErr else QHang
  end.
Definition q_string (cap : nat) (l : bytes) : qres token :=
  match l with [] => QErr | ch :: l' => if negb (ch =? ch_quote) then QErr else q_string_body cap l' end.

(** Length of the number at the front, if something follows it. *)
Fixpoint number_end (l : bytes) (n : nat) : option nat :=
  match l with
  | [] => None
  | ch :: l' => if is_number_char ch then number_end l' (S n) else Some n
  end.
Definition q_number (cap : nat) (l : bytes) : qres token :=
  match l with
  | [] => QErr
  | ch :: l' =>
      if negb (is_digit ch) then QErr else
      match number_end l' 1 with
      | Some n => if (n <? cap)%nat then QOk (Token TNumber (take n l)) (drop n l) else QHang
      | None => if (length l <=? cap)%nat then QErr else QHang
      end
  end.

Definition q_read_n (l : bytes) (ty : jtype) (first : Z) (n : nat) : qres token :=
  if (n <=? length l)%nat then
    match l with
    | [] => QErr
    | ch :: _ => if negb (ch =? first) then QErr else QOk (Token ty (take n l)) (drop n l)
    end
  else QErr.
Definition q_null (l : bytes) : qres token := q_read_n l TNull 110 4.
Definition q_boolean (l : bytes) : qres token :=
  qbind (q_current l) (fun ch l => if ch =? 116 then q_read_n l TBool 116 4 else q_read_n l TBool 102 5).
Definition q_literal (cap : nat) (l : bytes) : qres token :=
  qbind (q_next l) (fun next l =>
  match next with
  | TString => q_string cap l
  | TNumber => q_number cap l
  | TBool => q_boolean l
  | TNull => q_null l
  | _ => QErr
  end).

Fixpoint q_skip (depth cap : nat) (next : jtype) (l : bytes) {struct depth} : qres unit :=
  match depth with
  | O => QFuel
  | S depth =>
      match next with
      | TString => qbind (q_string cap l) (fun _ l => QOk tt l)
      | TNumber => qbind (q_number cap l) (fun _ l => QOk tt l)
      | TBool => qbind (q_boolean l) (fun _ l => QOk tt l)
      | TNull => qbind (q_null l) (fun _ l => QOk tt l)
      | TObjBegin => qbind (q_consume1 TObjBegin l) (fun _ l => q_skip_members depth cap l)
      | TArrBegin => qbind (q_consume1 TArrBegin l) (fun _ l => q_skip_elements depth cap l)
      | _ => QErr
      end
  end
with q_skip_elements (depth cap : nat) (l : bytes) {struct depth} : qres unit :=
  match depth with
  | O => QFuel
  | S depth =>
      qbind (q_next l) (fun next l =>
      if decide (next = TArrEnd) then q_consume1 TArrEnd l
      else qbind (q_skip depth cap next l) (fun _ l => q_skip_elements depth cap l))
  end
with q_skip_members (depth cap : nat) (l : bytes) {struct depth} : qres unit :=
  match depth with
  | O => QFuel
  | S depth =>
      qbind (q_next l) (fun next l =>
      if decide (next = TObjEnd) then q_consume1 TObjEnd l
      else qbind (q_string cap l) (fun _ l =>
           qbind (q_next l) (fun next l =>
           qbind (q_skip depth cap next l) (fun _ l => q_skip_members depth cap l))))
  end.
Definition q_Skip (depth cap : nat) (l : bytes) : qres unit :=
  qbind (q_next l) (fun next l => q_skip depth cap next l).

Definition q_op (depth cap : nat) (o : op) (l : bytes) : qres token :=
  let unit r := qbind r (fun (_ : unit) l => QOk (Token TNull []) l) in
  match o with
  | ONext => qbind (q_next l) (fun t l => QOk (Token t []) l)
  | OObjBegin => unit (q_consume TObjBegin l)
  | OObjEnd => unit (q_consume TObjEnd l)
  | OArrBegin => unit (q_consume TArrBegin l)
  | OArrEnd => unit (q_consume TArrEnd l)
  | OString => qbind (q_space l) (fun _ l => q_string cap l)
  | ONumber => qbind (q_space l) (fun _ l => q_number cap l)
  | OLiteral => q_literal cap l
  | OSkip => unit (q_Skip depth cap l)
  end.

Inductive yres (A : Type) := YDone (a : A) (l : bytes) | YError (a : A) | YHang | YFuel.
Arguments YDone {A}. Arguments YError {A}. Arguments YHang {A}. Arguments YFuel {A}.

Fixpoint q_exec {A} (depth cap : nat) (p : prog A) (l : bytes) : yres A :=
  match p with
  | Ret a => YDone a l
  | OutOfFuel => YFuel
  | Call o k e =>
      match q_op depth cap o l with
      | QOk t l' => q_exec depth cap (k t) l'
      | QErr => YError e
      | QHang => YHang
      | QFuel => YFuel
      end
  end.
