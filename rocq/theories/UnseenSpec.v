(** Vocabulary for C115: two executions of the program in which the same is reported about a trace. *)
From Verif Require Import Base SpanModel TreeModel TreeSpec FinishModel FinishSpec ForwardModel PipelineModel SystemModel SystemSpec WholeSpec OrderSpec.

(** What the handlers put into the channel about trace [t]: the spans that have an id. *)
Definition told {S} (t : Z) (st : ystate S) : list span :=
  filter (fun s => s_trace s = t /\ s_id s <> 0) (map snd (y_puts st)).

(** The corrector received all of them without long breaks, and was never short of room (C71). *)
Definition undisturbed {S} (t p : Z) (st : ystate S) : Prop :=
  y_input st = [] /\ steady (y_log st) /\ brisk p (additions t (y_log st)) /\ calm p (y_log st) /\
  Z.of_nat (length (additions t (y_log st))) <= 8192.

(** The converter treats every span by itself; what it is kept as, if it is. *)
Definition works_as {S} (conv : converter S) (g : span -> span * bool) : Prop := forall s x, (conv s x).2 = g x.
Definition kept (g : span -> span * bool) (l : list span) : list span :=
  omap (fun x => if decide ((g x).2 = false /\ s_id (g x).1 <> 0 /\ s_trace (g x).1 <> 0) then Some (g x).1 else None) l.
