(** Vocabulary for the Kafka properties. *)
From Verif Require Import Base SpanModel BinaryModel BinarySpec EncoderModel.

(** The pool can only hand out an existing encoder or a new one: [n] encoders exist before the list is sent. *)
Fixpoint pool_choices (n : nat) (l : list send) : Prop :=
  match l with
  | [] => True
  | s :: l' => (sn_enc s <= n)%nat /\ pool_choices (if (sn_enc s =? n)%nat then S n else n) l'
  end.

(** [k] is the little-endian 8-byte form of the unsigned 64-bit reading of [v]. *)
Definition le64 (v : Z) (k : bytes) : Prop :=
  length k = 8%nat /\ Forall byte_ok k /\
  u64 v = foldr (fun b acc => b + 256 * acc) 0 k.

(** What the outside sees of a consumer run. *)
Definition callbacks (l : list cevent) : list span :=
  concat (map (fun e => match e with Callback s => [s] | Mark _ => [] end) l).
Definition marks (l : list cevent) : list nat :=
  concat (map (fun e => match e with Callback _ => [] | Mark i => [i] end) l).

(** Message number [i] decodes to [s]. *)
Definition decodes_to (msgs : list bytes) (i : nat) (s : span) : Prop :=
  exists v rest, msgs !! i = Some v /\ binary_decode v = DOk s rest.
