(** What the pipeline should do, for C53 and C54. *)
From Verif Require Import Base SpanModel ForwardModel ForwardSpec PipelineModel.

(** Traces put in. *)
Definition inputs (evs : list pevent) : list (list span) := concat (map (fun e => match e with PInput t => [t] | _ => [] end) evs).

(** Steps of the goroutines themselves. *)
Definition internal (e : pevent) : Prop := match e with PInput _ => False | _ => True end.

(** Traces that are on their way to target [i]: being read; in its channel; held by the forwarder; before it. *)
Definition reading (r : reader) : nat := match rd_cur r with Some _ => 1 | None => 0 end.
Definition held {S} (st : pstate S) (i : nat) : nat :=
  match p_fwd st with FIdle => 0 | FConv _ _ _ => 1 | FSend _ k => if decide (i < k)%nat then 0 else 1 end.

Definition reachable {S} (cfg : config) (conv : converter S) (s : S) (evs : list pevent) (st : pstate S) : Prop :=
  prun cfg conv evs (pinit cfg s) = Next st.

(** No goroutine can make a step. *)
Definition stopped {S} (cfg : config) (conv : converter S) (st : pstate S) : Prop :=
  forall e, internal e -> pstep cfg conv e st = Blocked.
