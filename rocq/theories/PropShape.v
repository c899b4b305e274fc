(** Property C118: what becomes of spans is decided by their ids. *)
From Verif Require Import Base SpanModel TreeModel TreeSpec FinishModel FinishSpec FinishWitness ForwardModel SystemModel SystemSpec OrderSpec OrderWitness UnseenSpec UnseenWitness
  ClockSpec ClockWitness HostsWitness ShapeSpec ShapeProofs ShapeWitness.

(** C118: two runs of the corrector that receive spans with the same ids at the same times, with whatever starts, durations,
    recorded times, names, services and tags, have the same record up to these: the same traces leave at the same moments
    for the same reasons, with the same spans in the same order. *)
Theorem C118_run :
  forall evs evs', Forall2 same_shape evs evs' -> map shape_entry (run evs).2 = map shape_entry (run evs').2.
Proof. exact shaped_run. Qed.
Print Assumptions C118_run.

(** C118: in any two runs: if a trace of which the same ids were received in the same order is emitted in the first, the
    second does not give it up for want of a root, *)
Theorem C118_fate :
  forall evs evs' l1 l2 l1' l2' t out, Forall valid_event evs -> Forall valid_event evs' ->
  (run evs).2 = l1 ++ LOut t (Emitted out) :: l2 -> map shape (reports (pending l1 t)) = map shape (reports (pending l1' t)) ->
  (run evs').2 = l1' ++ LOut t NoRoot :: l2' -> False.
Proof. exact shape_fate. Qed.
Print Assumptions C118_fate.

(** C118: and if it emits it, then as the same tree. *)
Theorem C118_tree :
  forall evs evs' l1 l2 l1' l2' t out, Forall valid_event evs -> Forall valid_event evs' ->
  (run evs).2 = l1 ++ LOut t (Emitted out) :: l2 -> map shape (reports (pending l1 t)) = map shape (reports (pending l1' t)) ->
  forall out', (run evs').2 = l1' ++ LOut t (Emitted out') :: l2' -> map shape out ≡ₚ map shape out'.
Proof. exact shape_tree_same. Qed.
Print Assumptions C118_tree.

(** C118: so it is in executions of the whole program in which the trace is not disturbed (C115). *)
Theorem C118_system :
  forall (S S' : Type) cfg cfg' (conv : converter S) (conv' : converter S') s0 s0' evs evs' st st' t p p',
  yreachable cfg conv s0 evs st -> yreachable cfg' conv' s0' evs' st' -> t <> 0 -> undisturbed t p st -> undisturbed t p' st' ->
  map shape (told t st) = map shape (told t st') -> forall out, LOut t (Emitted out) ∈ y_log st ->
  forall o', LOut t o' ∈ y_log st' -> match o' with Emitted out' => map shape out ≡ₚ map shape out' | TooOld => True | _ => False end.
Proof. exact @shape_system. Qed.
Print Assumptions C118_system.

(** C118: in particular, whether a trace is emitted and as which tree does not depend on the clocks of the hosts (C116), whatever
    they are and whether or not a root is injected. *)
Theorem C118_clocks :
  forall (S S' : Type) cfg cfg' (conv : converter S) (conv' : converter S') s0 s0' evs evs' st st' t p p' outer inner,
  yreachable cfg conv s0 evs st -> yreachable cfg' conv' s0' evs' st' -> t <> 0 -> undisturbed t p st -> undisturbed t p' st' ->
  Forall2 (reclocked outer inner) (told t st) (told t st') -> forall out, LOut t (Emitted out) ∈ y_log st ->
  forall o', LOut t o' ∈ y_log st' -> match o' with Emitted out' => map shape out ≡ₚ map shape out' | TooOld => True | _ => False end.
Proof. exact @shape_clocks. Qed.
Print Assumptions C118_clocks.

(** A trace with a call, one without its root, one with two missing parents; whatever the spans say. *)
Example C118_instance :
  (forall a b c d e f g a' b' c' d' e' f' g', Forall2 same_shape (tale a b c d e f g) (tale a' b' c' d' e' f' g')) /\
  let x := words1 in let y := words2 in
  (run (tale x x x x x x x)).2 <> (run (tale y x y y x y x)).2 /\
  fates (run (tale x x x x x x x)).2 = [(8, 1, [(4, 2); (3, 2); (2, 8)]); (6, 2, []); (7, 1, [(7, 0); (1, 7)])] /\
  fates (run (tale y x y y x y x)).2 = [(8, 1, [(4, 2); (3, 2); (2, 8)]); (6, 2, []); (7, 1, [(7, 0); (1, 7)])].
Proof.
  split; [intros; apply tale_same|]. cbv zeta. split; [|split; vm_compute; reflexivity].
  intros H. apply (f_equal (fun l => match l with LSpan _ _ s :: _ => s_ts s | _ => 0 end)) in H. vm_compute in H. discriminate H.
Qed.

(** Two calls, one below the other, and the same without times. *)
Example C118_instance_runs :
  let l := calls 0 0 in let l' := map shape (calls 0 0) in exists out out',
  Forall valid_event (course l) /\ Forall valid_event (course l') /\
  (run (course l)).2 = course_log l 5 ++ [LOut 9 (Emitted out)] /\ (run (course l')).2 = course_log l' 5 ++ [LOut 9 (Emitted out')] /\
  map shape (reports (pending (course_log l 5) 9)) = map shape (reports (pending (course_log l' 5) 9)) /\ length out = 5%nat /\ out <> out'.
Proof.
  cbv zeta. exists (told_right 0 0), (map shape (told_right 0 0)). split; [apply calls_valid; lia|].
  split; [apply course_valid; unfold calls; cbn [map]; repeat (apply Forall_cons_2; [unfold int64_ok; p2; cbn; lia|]); apply Forall_nil_2|].
  split; [vm_compute; reflexivity|]. split; [vm_compute; reflexivity|]. split; [vm_compute; reflexivity|]. split; [reflexivity|].
  intros H. apply (f_equal (map s_ts)) in H. vm_compute in H. discriminate H.
Qed.

(** The whole program. *)
Example C118_instance_system :
  let st := after host_course1 in let st' := after shape_course in
  yreachable unseen_config unseen_conv tt host_course1 st /\ yreachable unseen_config unseen_conv tt shape_course st' /\
  undisturbed 9 (seconds 8) st /\ undisturbed 9 (seconds 8) st' /\ map shape (told 9 st) = map shape (told 9 st') /\
  Forall2 (reclocked host_outer host_inner) (told 9 st) (told 9 st') /\
  LOut 9 (Emitted (leaves 0)) ∈ y_log st /\ LOut 9 (Emitted (leaves ahead)) ∈ y_log st'.
Proof.
  cbv zeta. split; [exact host_course1_reaches|]. split; [exact shape_course_reaches|]. split; [exact host_undisturbed1|]. split; [exact shape_undisturbed|].
  split; [exact shape_told|]. split; [exact shape_reclocked|]. split; [exact host_emits1|exact shape_emits].
Qed.
