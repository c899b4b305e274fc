(** Vocabulary for redelivery (C64): a reader of a log that is sometimes sent back. *)
From Verif Require Import Base SpanModel TreeModel TreeSpec.

(** [delivered log n l]: a reader of [log] was handed the list [l] and reads at position [n] next.  It is handed the
    entries one after the other; at any time it may be sent back to any earlier position (a Kafka consumer goes on
    at the last committed offset after a crash or after the partition moved to it).  It never skips an entry. *)
Inductive delivered {A} (log : list A) : nat -> list A -> Prop :=
| delivered_start : delivered log 0 []
| delivered_next n l x : delivered log n l -> log !! n = Some x -> delivered log (S n) (l ++ [x])
| delivered_again n o l : delivered log n l -> (o <= n)%nat -> delivered log o l.

(** At the end it has reached the end of the log. *)
Definition read_whole {A} (log l : list A) : Prop := delivered log (length log) l.
