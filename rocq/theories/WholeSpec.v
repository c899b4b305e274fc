(** Vocabulary for C71, C72: a trace whose spans arrive without long breaks. *)
From Coq Require Import Sorted.
From Verif Require Import Base SpanModel TreeModel TreeSpec FinishModel FinishSpec.

(** The clock does not go back (Go's [time.Now] has a monotonic part, which [After] and [Before] use). *)
Definition readings (e : entry) : list Z :=
  match e with LSpan n0 n1 _ => [n0; n1] | LTick n1 n2 _ => [n1; n2] | _ => [] end.
Definition steady (log : list entry) : Prop := StronglySorted Z.le (concat (map readings log)).

(** All spans of trace [t] in a record, with their clock readings (spans without an id do not count). *)
Definition additions (t : Z) (log : list entry) : list addition :=
  omap (fun e => match e with LSpan n0 n1 s => if decide (s_trace s = t /\ s_id s <> 0) then Some (n0, n1, s) else None | _ => None end) log.

(** Each comes less than [p] after the one before, and all come within [5 * p]. *)
Definition brisk (p : Z) (a : list addition) : Prop :=
  (forall a1 x y a2, a = a1 ++ x :: y :: a2 -> y.1.2 - x.1.2 < p) /\ (forall x y, x ∈ a -> y ∈ a -> y.1.2 - x.1.1 <= 5 * p).

(** No check found more than 100000 spans, or so many that it waited for less than [p]. *)
Definition calm (p : Z) (log : list entry) : Prop :=
  forall n1 n2 load, LTick n1 n2 load ∈ log -> load <= 100000 /\ p <= patience load.
