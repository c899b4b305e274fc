(** Vocabulary for C65. *)
From Verif Require Import Base SpanModel PipelineModel ConsumeModel.

(** The callback of some claim is running. *)
Definition in_callback (st : vstate) : Prop :=
  exists l j s, v_loop st = LConsume l /\ l !! j = Some (CCalling s).

(** What the program and sarama do by themselves once the context is cancelled: no new claims, no new messages. *)
Definition winding_down (e : vevent) : bool :=
  match e with VSelect | VCallback _ | VMark _ | VClaimEnd _ | VReturn | VWake => true | VClaim | VMessage _ _ | VClose => false end.

(** Steps that were really done. *)
Fixpoint done_steps (evs : list vevent) (st : vstate) : nat :=
  match evs with
  | [] => 0
  | e :: evs' => match vstep e st with Next st' => S (done_steps evs' st') | Blocked => done_steps evs' st | Panicked => 0 end
  end.
