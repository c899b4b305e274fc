(** Specification of the amount of data in spans (C90): what a span holds beyond its fixed fields. *)
From Verif Require Import Base SpanModel CodecModel BinaryModel.

(** Tags: two for each entry, and its key and value. *)
Definition tags_size (m : gmap gostring gostring) : nat :=
  map_fold (fun k v n => (2 + length k + length v + n)%nat) 0%nat m.

(** A span: its name, its service and its tags, except for the tag that the proxy itself adds. *)
Definition span_size (s : span) : nat :=
  (length (s_name s) + length (s_service s) + tags_size (delete (str "protocolVersion") (s_tags s)))%nat.

(** Several spans: two for each. *)
Fixpoint spans_size (l : list span) : nat :=
  match l with [] => 0 | s :: l' => 2 + span_size s + spans_size l' end.

(** The data of earlier requests in the slots of the pool: the texts of binary annotations. *)
Fixpoint texts_size (l : list binaryAnnotationV1) : nat :=
  match l with [] => 0 | a :: l' => length (ba_key a) + length (ba_value a) + length (ba_endpoint a) + texts_size l' end.
Fixpoint pool_texts (pool : list spanV1) : nat :=
  match pool with [] => 0 | s :: pool' => texts_size (sl_mem (v1_bas s)) + pool_texts pool' end.

(** A span without the name of its service, which the spans of a Jaeger process share. *)
Definition span_own_size (s : span) : nat := (length (s_name s) + tags_size (delete (str "protocolVersion") (s_tags s)))%nat.
Fixpoint spans_own_size (l : list span) : nat :=
  match l with [] => 0 | s :: l' => 2 + span_own_size s + spans_own_size l' end.
