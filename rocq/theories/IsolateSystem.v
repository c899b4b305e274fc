(** C103 in the whole program. *)
From Verif Require Import Base SpanModel FinishModel FinishSpec ForwardModel PipelineModel SystemModel SystemSpec SystemTheorems IsolateSpec IsolateProofs.

Lemma isolated_system {S S'} cfg cfg' (conv : converter S) (conv' : converter S') s0 s0' evs evs' st st' t :
  yreachable cfg conv s0 evs st -> yreachable cfg' conv' s0' evs' st' ->
  heard t (y_log st) = heard t (y_log st') ->
  (forall i l l', loads (y_log st) !! i = Some l -> loads (y_log st') !! i = Some l' -> patience l = patience l' /\ l <= 100000 /\ l' <= 100000) ->
  LEvict t ∉ y_log st -> LEvict t ∉ y_log st' -> about t (y_log st) = about t (y_log st').
Proof.
  intros Hr Hr'. destruct (system_record _ _ _ _ _ Hr) as (fevs & Hv & E). destruct (system_record _ _ _ _ _ Hr') as (fevs' & Hv' & E'). by apply (isolated_heard fevs fevs' (y_corr st) (y_corr st')).
Qed.
