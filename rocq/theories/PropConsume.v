(** Property C65: starting and ending the consumption of the Kafka topic. *)
From Verif Require Import Base SpanModel BinaryModel PipelineModel ConsumeModel ConsumeSpec ConsumeProofs.

(** C65: no schedule panics, also if the returned function is called several times. *)
Theorem C65_no_panic : forall evs, exists st, vrun evs vinit = Next st.
Proof. exact consume_no_panic. Qed.
Print Assumptions C65_no_panic.

(** C65: once it has returned, no callback is running and no message will ever be handled. *)
Theorem C65_closed :
  forall evs st evs' st', vrun evs vinit = Next st -> v_returned st <> 0%nat -> vrun evs' st = Next st' ->
  ~ in_callback st' /\ forall j v, vstep (VMessage j v) st' = Blocked.
Proof. exact closed_for_good. Qed.
Print Assumptions C65_closed.

(** C65: it returns: if no new claims and messages come, only a bounded number of steps is left, and as long as a call
    waits one of them is possible. *)
Theorem C65_close_returns :
  forall evs st, vrun evs vinit = Next st -> v_waiting st <> 0%nat ->
  (exists n, forall evs', forallb winding_down evs' = true -> (done_steps evs' st <= n)%nat) /\
  (forall evs' st', forallb winding_down evs' = true -> vrun evs' st = Next st' -> v_waiting st' <> 0%nat ->
     exists e st'', winding_down e = true /\ vstep e st' = Next st'').
Proof. exact close_returns. Qed.
Print Assumptions C65_close_returns.

(** C65: as long as it is not called, consumption goes on, whatever [Consume] returns. *)
Theorem C65_goes_on :
  forall evs st, vrun evs vinit = Next st -> ~ VClose ∈ evs -> v_loop st <> LDone /\
  exists evs' st' l, vrun evs' st = Next st' /\ v_loop st' = LConsume l.
Proof. exact goes_on. Qed.
Print Assumptions C65_goes_on.

(** C65: within a session a claim handles message after message: one that decodes is handed to the callback and marked,
    one that does not is passed over; the claim then waits for the next. *)
Theorem C65_messages :
  forall st l j v, v_loop st = LConsume l -> l !! j = Some CWaiting ->
  (forall s rest, binary_decode v = DOk s rest -> exists st', vstep (VMessage j v) st = Next st' /\ v_loop st' = LConsume (<[j := CCalling s]> l) /\
     vrun [VCallback j; VMark j] st' = Next st) /\
  ((forall s rest, binary_decode v <> DOk s rest) -> vstep (VMessage j v) st = Next st).
Proof. exact claim_messages. Qed.
Print Assumptions C65_messages.

(** Two sessions; the function is called twice while a callback of the second session runs. *)
Example C65_instance :
  let msg := [4;2;6;0;0;0;0;0;0;0;0;0] in
  let before := [VSelect; VClaim; VMessage 0 msg; VCallback 0; VMark 0; VClaimEnd 0; VReturn;
                 VSelect; VClaim; VClaim; VMessage 1 [9]; VMessage 1 msg; VClose; VClose; VWake; VReturn] in
  let after := [VClaimEnd 0; VClaimEnd 0; VCallback 0; VMark 0; VClaimEnd 0; VReturn; VSelect; VWake; VWake] in
  vrun before vinit = Next (VState (LConsume [CWaiting; CCalling (new_span [] 1 2 3)]) true false 2 0) /\
  forallb winding_down after = true /\
  vrun (before ++ after) vinit = Next (VState LDone true true 0 2).
Proof. by vm_compute. Qed.
