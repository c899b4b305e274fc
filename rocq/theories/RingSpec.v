(** What the ring should contain, for C47 and C48. *)
From Verif Require Import Base SpanModel.

(** The last [n] elements of a list, in order. *)
Definition lastn {A} (n : nat) (l : list A) : list A := drop (length l - n) l.

(** Spans that the endpoint shows. *)
Definition visible (l : list span) : list span := filter (fun s => s_id s <> 0) l.
