(** Vocabulary for the id properties: hexadecimal text and positional value.  Independent of the model. *)
From Verif Require Import Base.

(** [c] is a hex digit character (either case) with value [d]. *)
Inductive hex_digit : Z -> Z -> Prop :=
| hex_09 d : 0 <= d <= 9 -> hex_digit (48 + d) d              (* '0'..'9' *)
| hex_af d : 10 <= d <= 15 -> hex_digit (97 + (d - 10)) d     (* 'a'..'f' *)
| hex_AF d : 10 <= d <= 15 -> hex_digit (65 + (d - 10)) d.    (* 'A'..'F' *)

(** Lower-case hex digit characters. *)
Definition lower_hex (c : Z) : Prop := 48 <= c <= 57 \/ 97 <= c <= 102.

(** Positional value of a digit list, most significant digit first. *)
Fixpoint value16 (ds : list Z) : Z :=
  match ds with
  | [] => 0
  | d :: ds' => d * 16 ^ Z.of_nat (length ds') + value16 ds'
  end.

(** The text [t] denotes the number [n] in base 16. *)
Definition denotes16 (t : bytes) (n : Z) : Prop :=
  exists ds, Forall2 hex_digit t ds /\ n = value16 ds.

(** [z] is the signed 64-bit reading of the 64-bit pattern [n]. *)
Definition signed64 (n z : Z) : Prop := - 2^63 <= z < 2^63 /\ (z - n) mod 2^64 = 0.
