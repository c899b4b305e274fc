(** Property C70: a trace whose spans came in through several proxies. *)
From Verif Require Import Base SpanModel BinaryModel BinarySpec TreeModel TreeSpec FinishModel FinishSpec FinishWitness PipelineModel ConsumeModel ReplaySpec
  ClusterModel ClusterSpec JoinSpec JoinProofs.

(** C70: if the partition of a trace has had one owner [i] which read it from the beginning to the end, all spans of the
    trace got into Kafka, and the corrector of [i] emitted the trace once, after its last span, then the emitted trace is
    the one made of all spans of the trace that any proxies accepted, in some order. *)
Theorem C70_joined :
  forall cfg n parts evs st rec t i x q fevs l1 out l2, reached cfg n parts evs st rec ->
  z_parts st !! home cfg t = Some q -> opened rec (home cfg t) = 1%nat -> ROpen (home cfg t) i 0 ∈ rec ->
  length (handled rec (home cfg t)) = length (q_log q) -> ~ crashed rec i -> z_proxies st !! i = Some x -> x_kafka x = [] -> arrived st rec t ->
  t <> 0 -> Forall valid_event fevs -> fed (run fevs).2 = received rec i ->
  (run fevs).2 = l1 ++ LOut t (Emitted out) :: l2 -> (forall o, LOut t o ∉ l1) -> (forall s, s ∈ fed l2 -> s_trace s <> t) ->
  exists order, order ≡ₚ proper t (puts rec) /\ emission t (merged_spans t (map (fun s => (0, 0, s)) order)) out /\
    forall s, s ∈ puts rec -> s_trace s = t -> s_id s <> 0 -> s_id s ∈ ids out.
Proof. exact joined. Qed.
Print Assumptions C70_joined.

(** C70: and no other corrector emits or drops anything of the trace. *)
Theorem C70_elsewhere :
  forall cfg n parts evs st rec t i x q j fevs o, reached cfg n parts evs st rec ->
  z_parts st !! home cfg t = Some q -> opened rec (home cfg t) = 1%nat -> ROpen (home cfg t) i 0 ∈ rec ->
  length (handled rec (home cfg t)) = length (q_log q) -> ~ crashed rec i -> z_proxies st !! i = Some x -> x_kafka x = [] ->
  j <> i -> Forall valid_event fevs -> fed (run fevs).2 = received rec j -> LOut t o ∉ (run fevs).2.
Proof. exact elsewhere. Qed.
Print Assumptions C70_elsewhere.

(** C70: with any number of sessions of the same owner, redeliveries included, the emitted trace is the one that the log
    holds since reading began, as if it had been read once. *)
Theorem C70_again :
  forall cfg n parts evs st rec t i x q c o fevs l1 out l2, reached cfg n parts evs st rec ->
  (forall j o, ROpen (home cfg t) j o ∈ rec -> j = i) -> ~ crashed rec i -> z_proxies st !! i = Some x -> x_kafka x = [] ->
  z_parts st !! home cfg t = Some q -> q_claim q = Some c -> handled_to c = length (q_log q) ->
  reading rec (home cfg t) = Some (o, handled rec (home cfg t)) ->
  t <> 0 -> Forall valid_event fevs -> fed (run fevs).2 = received rec i ->
  (run fevs).2 = l1 ++ LOut t (Emitted out) :: l2 -> (forall o, LOut t o ∉ l1) -> (forall s, s ∈ fed l2 -> s_trace s <> t) ->
  exists ss, Forall2 carries (drop o (q_log q)) ss /\ emission t (merged_spans t (map (fun s => (0, 0, s)) (proper t ss))) out /\
    forall s, s ∈ ss -> s_trace s = t -> s_id s <> 0 -> s_id s ∈ ids out.
Proof. exact joined_again. Qed.
Print Assumptions C70_again.

(** Proxy 0 accepts the root of trace 4, proxy 1 a child and a span of trace 6; proxy 2 reads them, in two sessions (the
    last message twice), and its corrector emits trace 4. *)
Definition join_cfg : kconfig := KConfig 2 2 2 2 1000 (fun k => Z.to_nat (hd 0 k mod 2)).
Definition join_span (t id parent : Z) : span := new_span (str "a") t id parent.
Definition join_send (i : nat) (s : span) : list kevent := [KPut i s; KTake i map_to_list; KInput i; KDispatch i; KWrite i 0].
Definition join_read : list kevent := [KNext 0; KCall 0; KMark 0; KRecv 2].
Definition join_once : list kevent :=
  [KOpen 0 2] ++ join_send 0 (join_span 4 7 7) ++ join_read ++ join_send 1 (join_span 6 5 5) ++ join_send 1 (join_span 4 8 7) ++ join_read ++ [KCommit 0] ++ join_read.
Definition join_twice : list kevent := join_once ++ [KClose 0 false; KOpen 0 2] ++ join_read.
Definition join_corrector (spans : list span) : list event :=
  map (ESpan map_to_list 0 0) spans ++ [ETick (plain_tick (seconds 9))].

Lemma join_span_ok t id p : int64_ok t -> int64_ok id -> int64_ok p -> wire_ok (join_span t id p).
Proof.
  intros Ht Hi Hp. split; [repeat split; cbn; unfold int64_ok in *; lia|]. split; [unfold wire_string; cbn; lia|]. split; [unfold wire_string; cbn; lia|].
  split; [|by cbn]. intros k v H. cbn in H. by rewrite lookup_empty in H.
Qed.
Ltac jvalid := repeat (apply Forall_cons; split;
  [first [exact I|apply join_span_ok; unfold int64_ok; lia|intros m; unfold iteration_order; reflexivity]|]); apply Forall_nil_2.
Lemma join_corrector_valid spans : Forall (fun s => int64_ok (s_ts s)) spans -> Forall valid_event (join_corrector spans).
Proof.
  intros H. apply Forall_app. split; [|repeat constructor; apply plain_valid]. apply Forall_map. eapply Forall_impl; [exact H|].
  intros s Hs. split; [intros m; reflexivity|exact Hs].
Qed.

Example C70_instance :
  exists st rec q x, reached join_cfg 3 2 join_once st rec /\ home join_cfg 4 = 0%nat /\ arrived st rec 4 /\
  z_parts st !! 0%nat = Some q /\ opened rec 0 = 1%nat /\ ROpen 0 2 0 ∈ rec /\ length (handled rec 0) = length (q_log q) /\ z_proxies st !! 2%nat = Some x /\ x_kafka x = [] /\
  Forall valid_event (join_corrector (received rec 2)) /\ fed (run (join_corrector (received rec 2))).2 = received rec 2 /\
  map (fun e => match e with LOut t (Emitted out) => (t, map s_id out) | _ => (0, []) end) (run (join_corrector (received rec 2))).2 =
    [(0, []); (0, []); (0, []); (0, []); (4, [8; 7]); (6, [5])] /\ map s_id (puts rec) = [7; 5; 8].
Proof.
  destruct (krun join_cfg join_once (kinit 3 2) []) as [[st rec]| |] eqn:E; [|vm_compute in E; discriminate|vm_compute in E; discriminate].
  vm_compute in E. injection E as <- <-. eexists _, _, _, _. split; [split; [jvalid|reflexivity]|]. split; [reflexivity|].
  split; [split; [intros s Hs|intros m s Hm]; [by apply elem_of_nil in Hs|by apply elem_of_nil in Hm]|].
  do 2 (split; [vm_compute; reflexivity|]). split; [repeat first [apply elem_of_list_here|apply elem_of_list_further]|].
  do 3 (split; [vm_compute; reflexivity|]).
  split; [apply join_corrector_valid; match goal with |- Forall _ ?l => let l' := eval vm_compute in l in change l with l' end;
    repeat (apply Forall_cons; split; [cbn; unfold int64_ok; lia|]); apply Forall_nil_2|].
  repeat (split; [vm_compute; reflexivity|]). vm_compute. reflexivity.
Qed.

Example C70_again_instance :
  exists st rec q c x, reached join_cfg 3 2 join_twice st rec /\
  z_parts st !! 0%nat = Some q /\ q_claim q = Some c /\ handled_to c = length (q_log q) /\ reading rec 0 = Some (0%nat, handled rec 0) /\
  z_proxies st !! 2%nat = Some x /\ x_kafka x = [] /\ map s_id (received rec 2) = [7; 5; 8; 8] /\
  map (fun e => match e with LOut t (Emitted out) => (t, map s_id out) | _ => (0, []) end) (run (join_corrector (received rec 2))).2 =
    [(0, []); (0, []); (0, []); (0, []); (0, []); (4, [8; 7]); (6, [5])].
Proof.
  destruct (krun join_cfg join_twice (kinit 3 2) []) as [[st rec]| |] eqn:E; [|vm_compute in E; discriminate|vm_compute in E; discriminate].
  vm_compute in E. injection E as <- <-. eexists _, _, _, _, _. split; [split; [jvalid|reflexivity]|].
  repeat (split; [vm_compute; reflexivity|]). vm_compute. reflexivity.
Qed.
