(** What a check decides about every trace that waits, for C101. *)
From Verif Require Import Base SpanModel TreeSpec FinishModel FinishSpec.

(** What became of [t] in a part of the record. *)
Definition outcomes (t : Z) (log : list entry) : list outcome :=
  omap (fun e => match e with LOut t' o => if decide (t' = t) then Some o else None | _ => None end) log.

(** Spans of which a trace can be made: one root candidate, or several that name the same parent, unless the id of the trace is the
    id of a span. *)
Definition emittable (t : Z) (spans : list span) : Prop :=
  (exists r, root_candidate spans r /\ forall r', root_candidate spans r' -> r' = r) \/
  (t ∉ ids spans /\ (exists c c', root_candidate spans c /\ root_candidate spans c' /\ c <> c') /\
   exists p, forall c, root_candidate spans c -> s_parent c = p).

(** The decision about a trace for which [a] was received, at a check at [n1] ([n2] when the age is computed) under [load]. *)
Definition decision (t : Z) (a : list addition) (n1 n2 load : Z) (os : list outcome) : Prop :=
  if decide (8192 < counted t a) then os = [TooLarge]
  else if decide (started a < n2 - 5 * patience load) then os = [TooOld]
  else if decide (touched a <= n1 - patience load) then
    (emittable t (merged_spans t a) /\ exists out, os = [Emitted out] /\ emission t (merged_spans t a) out) \/
    (~ emittable t (merged_spans t a) /\ os = [NoRoot])
  else os = [] \/ (os = [Overload] /\ 100000 < load).
