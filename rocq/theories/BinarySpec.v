(** Vocabulary for the binary codec properties. *)
From Verif Require Import Base SpanModel BinaryModel.

(** Strings that the wire format can carry: shorter than 2^31 bytes (length limit of [readString]). *)
Definition wire_string (s : gostring) : Prop := Z.of_nat (length s) < 2^31.

(** A span the wire format can carry: machine-range integers, strings below 2^31 bytes, fewer than 2^63 tags. *)
Definition wire_ok (s : span) : Prop :=
  span_ok s /\ wire_string (s_name s) /\ wire_string (s_service s) /\
  (forall k v, s_tags s !! k = Some v -> wire_string k /\ wire_string v) /\
  Z.of_nat (size (s_tags s)) < 2^63.

(** [a] is a strict prefix of [b]. *)
Definition strict_prefix {A} (a b : list A) : Prop := exists c, c <> [] /\ b = a ++ c.

(** Self-delimiting byte group: every byte but the last has the top bit set, the last has not. *)
Definition varint_shape (bs : bytes) : Prop :=
  exists init l, bs = init ++ [l] /\ Forall (fun b => 128 <= b < 256) init /\ 0 <= l < 128.

(** A block of the Avro map format: its entries, and [Some size] if it is written with a negated count followed
    by a byte size (which readers may use to skip the block). *)
Record map_block := MapBlock { mb_size : option Z; mb_entries : list (gostring * gostring) }.

Definition block_ok (b : map_block) : Prop :=
  mb_entries b <> [] /\ Z.of_nat (length (mb_entries b)) < 2^63 /\
  Forall (fun kv => wire_string kv.1 /\ wire_string kv.2) (mb_entries b) /\
  match mb_size b with Some z => int64_ok z | None => True end.

(** The bytes of one block and of a map made of blocks. *)
Definition block_bytes (b : map_block) : option bytes :=
  match mb_size b with
  | None => write_long (Z.of_nat (length (mb_entries b))) +++ write_entries (mb_entries b)
  | Some z => write_long (- Z.of_nat (length (mb_entries b))) +++ write_long z +++ write_entries (mb_entries b)
  end.
Fixpoint blocks_bytes (bs : list map_block) : option bytes :=
  match bs with
  | [] => write_long 0
  | b :: bs' => block_bytes b +++ blocks_bytes bs'
  end.

(** The value of key [k] after reading the entries in order: the last entry for [k] wins. *)
Definition last_entry (kvs : list (gostring * gostring)) (k v : gostring) : Prop :=
  exists l1 l2, kvs = l1 ++ (k, v) :: l2 /\ k ∉ l2.*1.
