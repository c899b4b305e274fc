(** The texts on a plain list of remaining bytes: as JsonPure.  [WErr]: an error that does not depend on what follows; [WEnd]: one
    because there is nothing more; [fin] is the text of the error at the end. *)
From Verif Require Import Base IdModel JsonModel LiteralModel CodecModel JsonPure TextModel.

Inductive wres (A : Type) := WOk (a : A) (l : bytes) | WErr (m : bytes) | WEnd (m : bytes) | WHang | WFuel.
Arguments WOk {A}. Arguments WErr {A}. Arguments WEnd {A}. Arguments WHang {A}. Arguments WFuel {A}.
Definition wbind {A B} (r : wres A) (f : A -> bytes -> wres B) : wres B :=
  match r with WOk a l => f a l | WErr m => WErr m | WEnd m => WEnd m | WHang => WHang | WFuel => WFuel end.

(** The text of [wrongTypeError] when the byte is [b]. *)
Definition wrong_text (expected : jtype) (b : Z) : bytes :=
  match symbol b with
  | TError => str "expected token of type " ++ quoted_type expected ++ str ", but found character " ++ quoted b
  | actual => str "expected token of type " ++ quoted_type expected ++ str ", but found " ++ quoted_type actual
  end.
(** The text of the error of decoding a string. *)
Fixpoint unescape_error (l : bytes) : bytes :=
  match l with
  | [] => []
  | c :: l1 =>
      if negb (c =? 92) then unescape_error l1
      else match l1 with
           | [] => str "premature end of input"
           | c :: l2 =>
               if negb (c =? 117) then unescape_error l2
               else match l2 with
                    | a :: b :: c :: d :: l3 =>
                        match hex_digit a, hex_digit b, hex_digit c, hex_digit d with
                        | Some _, Some _, Some _, Some _ => unescape_error l3
                        | _, _, _, _ => hex_error [a; b; c; d]
                        end
                    | _ => str "premature end of input while decoding unicode character"
                    end
           end
  end.

Section pure.
Context (fin : bytes).

Definition w_space (l : bytes) : wres unit := match drop_space l with [] => WEnd fin | l' => WOk tt l' end.
Definition w_current (l : bytes) : wres Z := match l with [] => WEnd [] | b :: _ => WOk b l end.
Definition w_next (l : bytes) : wres jtype :=
  wbind (w_space l) (fun _ l => wbind (w_current l) (fun b l =>
  match symbol b with TError => WErr (str "unexpected character: " ++ quoted b) | t => WOk t l end)).
Definition w_consume1 (ty : jtype) (l : bytes) : wres unit :=
  match l with [] => WEnd [] | b :: l' => if decide (symbol b = ty) then WOk tt l' else WErr (wrong_text ty b) end.
Definition w_consume (ty : jtype) (l : bytes) : wres unit := wbind (w_space l) (fun _ l => w_consume1 ty l).

Definition w_string_body (cap : nat) (l : bytes) : wres token :=
  match close l 0 false false with
  | Some (n, has) =>
      if (n <? cap)%nat then
        if has : bool then
          match unescape (take n l) with Some v => WOk (Token TString v) (drop (n + 1) l) | None => WErr (unescape_error (take n l)) end
        else WOk (Token TString (take n l)) (drop (n + 1) l)
      else WHang
  | None => if (length l <=? cap)%nat then WEnd fin else WHang
  end.
Definition w_string (cap : nat) (l : bytes) : wres token :=
  match l with [] => WEnd [] | ch :: l' => if negb (ch =? ch_quote) then WErr (wrong_text TString ch) else w_string_body cap l' end.

Definition w_number (cap : nat) (l : bytes) : wres token :=
  match l with
  | [] => WEnd []
  | ch :: l' =>
      if negb (is_digit ch) then WErr (wrong_text TNumber ch) else
      match number_end l' 1 with
      | Some n => if (n <? cap)%nat then WOk (Token TNumber (take n l)) (drop n l) else WHang
      | None => if (length l <=? cap)%nat then WEnd fin else WHang
      end
  end.

Definition required (n : nat) : bytes := with_message (str "require(" ++ [48 + Z.of_nat n] ++ str ")") fin.
Definition w_read_n (l : bytes) (ty : jtype) (first : Z) (n : nat) : wres token :=
  if (n <=? length l)%nat then
    match l with
    | [] => WEnd []
    | ch :: _ => if negb (ch =? first) then WErr (wrong_text ty ch) else WOk (Token ty (take n l)) (drop n l)
    end
  else WEnd (required n).
Definition w_null (l : bytes) : wres token := w_read_n l TNull 110 4.
Definition w_boolean (l : bytes) : wres token :=
  wbind (w_current l) (fun ch l => if ch =? 116 then w_read_n l TBool 116 4 else w_read_n l TBool 102 5).
Definition w_literal (cap : nat) (l : bytes) : wres token :=
  wbind (w_next l) (fun next l =>
  match next with
  | TString => w_string cap l
  | TNumber => w_number cap l
  | TBool => w_boolean l
  | TNull => w_null l
  | _ => WErr (str "expected literal, got " ++ quoted_type next)
  end).

Fixpoint w_skip (depth cap : nat) (next : jtype) (l : bytes) {struct depth} : wres unit :=
  match depth with
  | O => WFuel
  | S depth =>
      match next with
      | TString => wbind (w_string cap l) (fun _ l => WOk tt l)
      | TNumber => wbind (w_number cap l) (fun _ l => WOk tt l)
      | TBool => wbind (w_boolean l) (fun _ l => WOk tt l)
      | TNull => wbind (w_null l) (fun _ l => WOk tt l)
      | TObjBegin => wbind (w_consume1 TObjBegin l) (fun _ l => w_skip_members depth cap l)
      | TArrBegin => wbind (w_consume1 TArrBegin l) (fun _ l => w_skip_elements depth cap l)
      | _ => WErr (str "can not skip unexpected symbol of type " ++ quoted_type next)
      end
  end
with w_skip_elements (depth cap : nat) (l : bytes) {struct depth} : wres unit :=
  match depth with
  | O => WFuel
  | S depth =>
      wbind (w_next l) (fun next l =>
      if decide (next = TArrEnd) then w_consume1 TArrEnd l
      else wbind (w_skip depth cap next l) (fun _ l => w_skip_elements depth cap l))
  end
with w_skip_members (depth cap : nat) (l : bytes) {struct depth} : wres unit :=
  match depth with
  | O => WFuel
  | S depth =>
      wbind (w_next l) (fun next l =>
      if decide (next = TObjEnd) then w_consume1 TObjEnd l
      else wbind (w_string cap l) (fun _ l =>
           wbind (w_next l) (fun next l =>
           wbind (w_skip depth cap next l) (fun _ l => w_skip_members depth cap l))))
  end.
Definition w_Skip (depth cap : nat) (l : bytes) : wres unit :=
  wbind (w_next l) (fun next l => w_skip depth cap next l).

Definition w_op (depth cap : nat) (o : op) (l : bytes) : wres token :=
  let unit r := wbind r (fun (_ : unit) l => WOk (Token TNull []) l) in
  match o with
  | ONext => wbind (w_next l) (fun t l => WOk (Token t []) l)
  | OObjBegin => unit (w_consume TObjBegin l)
  | OObjEnd => unit (w_consume TObjEnd l)
  | OArrBegin => unit (w_consume TArrBegin l)
  | OArrEnd => unit (w_consume TArrEnd l)
  | OString => wbind (w_space l) (fun _ l => w_string cap l)
  | ONumber => wbind (w_space l) (fun _ l => w_number cap l)
  | OLiteral => w_literal cap l
  | OSkip => unit (w_Skip depth cap l)
  end.

(** Of a program: no error; an error that does not depend on what follows; one because there is nothing more. *)
Inductive vres := VDone | VErr (m : bytes) | VEnd (m : bytes) | VHang.
Fixpoint w_exec {A} (depth cap : nat) (p : tprog A) (l : bytes) : vres :=
  match p with
  | TRet _ => VDone
  | TFail _ m => VErr m
  | TOut => VHang
  | TCall o k _ w =>
      match w_op depth cap o l with
      | WOk t l' => w_exec depth cap (k t) l'
      | WErr m => VErr (w m)
      | WEnd m => VEnd (w m)
      | WHang => VHang
      | WFuel => VHang
      end
  end.
End pure.
