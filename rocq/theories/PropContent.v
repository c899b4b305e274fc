(** C94: emitted spans say nothing that no accepted span said. *)
From Verif Require Import Base SpanModel JsonModel CodecModel HandlerModel HandlerSpec TreeModel TreeSpec FinishModel FinishSpec FinishWitness ForwardModel ForwardSpec
  PipelineModel PipelineSpec SystemModel SystemSpec BinaryModel BinarySpec ConsumeModel ReplaySpec ClusterModel ClusterSpec JoinSpec ContentSpec ContentProofs PropSystem PropJoin.

(** C94: parent, name, service, timings and tags of a span of an emitted trace are those of spans with its id that waited
    for it, and no tag of these is missing; or the span is the injected root, and nobody reported it. *)
Theorem C94_emitted :
  forall evs l1 t out l2 x, Forall valid_event evs -> (run evs).2 = l1 ++ LOut t (Emitted out) :: l2 -> x ∈ out ->
  told (reports (s_id x) (pending l1 t)) x \/
  (exists f st du, injected t (merged_spans t (pending l1 t)) f /\ x = retimed f st du /\ reports (s_id x) (pending l1 t) = []).
Proof. exact emitted_told. Qed.
Print Assumptions C94_emitted.

(** C94: the same of the whole program: what a target gets is the conversion of a span that was told by spans which the
    handlers of requests accepted, or of an injected root. *)
Theorem C94_system :
  forall (S : Type) cfg (conv : converter S) s0 evs st i r y, yreachable cfg conv s0 evs st -> p_readers (y_pipe st) !! i = Some r -> y ∈ concat (rd_log r) ->
  exists x c c', conv c x = (c', (y, false)) /\
    ((exists gs, told gs x /\ forall g, g ∈ gs -> s_id g = s_id x /\ s_trace g = s_trace x /\ exists j, (j, g) ∈ y_puts st) \/
     (s_name x = str "fake-root" /\ s_service x = str "fake-root" /\ s_tags x = ∅ /\ s_timings x = Timings 0 0 0 0 /\ s_parent x = s_trace x)).
Proof. exact @system_told. Qed.
Print Assumptions C94_system.

(** C94: and of several proxies with Kafka: whatever is lost, repeated or reordered, each corrector emits only spans that
    were told by spans which the handlers of some proxies accepted. *)
Theorem C94_cluster :
  forall cfg n parts evs st rec i fevs l1 t out l2 x, reached cfg n parts evs st rec ->
  Forall valid_event fevs -> fed (run fevs).2 = received rec i -> (run fevs).2 = l1 ++ LOut t (Emitted out) :: l2 -> x ∈ out ->
  (exists gs, told gs x /\ forall g, g ∈ gs -> s_id g = s_id x /\ s_trace g = s_trace x /\ exists j, RPut j g ∈ rec) \/
  (s_name x = str "fake-root" /\ s_service x = str "fake-root" /\ s_tags x = ∅ /\ s_timings x = Timings 0 0 0 0 /\ s_parent x = s_trace x).
Proof. exact cluster_told. Qed.
Print Assumptions C94_cluster.

(** A client and a server report span 7 of trace 4; two spans of trace 9 have the same missing parent 5. *)
Definition client_report : span := Span 7 0 4 [] (str "web") 100 50 {[str "a" := str "1"; str "b" := str "2"]} (Timings 100 150 0 0).
Definition server_report : span := Span 7 3 4 (str "get") (str "db") 110 20 {[str "b" := str "3"; str "c" := str "4"]} (Timings 0 0 130 110).
Definition content_run : list event :=
  map (ESpan map_to_list 0 0) [client_report; server_report; Span 1 5 9 (str "x") [] 10 10 ∅ (Timings 0 0 0 0); Span 2 5 9 (str "y") [] 15 20 ∅ (Timings 0 0 0 0)]
  ++ [ETick (plain_tick (seconds 9))].
Definition joint_span : span := Span 7 3 4 (str "get") (str "db") 100 50 (<[str "c" := str "4"]> (<[str "b" := str "3"]> {[str "a" := str "1"; str "b" := str "2"]})) (Timings 100 150 130 110).
Definition fake_span : span := Span 5 9 9 (str "fake-root") (str "fake-root") 10 25 ∅ (Timings 0 0 0 0).

Lemma content_valid : Forall valid_event content_run.
Proof. repeat (apply Forall_cons; split; [first [exact (plain_valid _)|split; [intros m; reflexivity|cbn; unfold int64_ok; lia]]|]). apply Forall_nil_2. Qed.

Example C94_instance : let log := (run content_run).2 in
  Forall valid_event content_run /\ log !! 5%nat = Some (LOut 4 (Emitted [joint_span])) /\ reports 7 (pending (take 5 log) 4) = [client_report; server_report] /\
  match log !! 6%nat with Some (LOut 9 (Emitted out)) => hd_error out = Some fake_span /\ length out = 3%nat | _ => False end /\ reports 5 (pending (take 6 log) 9) = [].
Proof. intros log. split; [exact content_valid|]. vm_compute. repeat split. Qed.
(** What [told] excludes: a value of nobody, a lost tag, a forgotten name. *)
Example C94_told_instance : told [client_report; server_report] joint_span /\ ~ told [client_report; server_report] (set_service (str "other") joint_span) /\
  ~ told [client_report; server_report] (set_tags ∅ joint_span) /\ ~ told [client_report; server_report] (set_name [] joint_span).
Proof.
  split.
  { assert (Hx : (run content_run).2 = take 5 (run content_run).2 ++ LOut 4 (Emitted [joint_span]) :: drop 6 (run content_run).2) by (vm_compute; reflexivity).
    destruct (C94_emitted _ _ _ _ _ joint_span content_valid Hx) as [H|(f & st & du & _ & _ & H)]; [left|exact H|vm_compute in H; discriminate]. }
  split; [intros [_ _ _ _ (g & Hg & Eg) _ _ _ _]|]; [repeat (apply elem_of_cons in Hg as [->|Hg]; [discriminate Eg|]); by apply elem_of_nil in Hg|].
  split; [intros [_ _ _ _ _ _ _ Hk _]; apply (Hk client_report (str "a")); [left|vm_compute; discriminate|reflexivity]|].
  intros [_ _ _ Hn _ _ _ _ _]. specialize (Hn eq_refl). rewrite Forall_forall in Hn. discriminate (Hn server_report ltac:(right; left)).
Qed.

(** The run of C60: target 1 gets the three spans of two requests. *)
Example C94_system_instance : exists st r, yreachable demo_config identity tt (demo_start ++ demo_end) st /\ p_readers (y_pipe st) !! 1%nat = Some r /\
  map s_id (concat (rd_log r)) = [7; 3; 2] /\ map (fun p => (p.1, s_id p.2)) (y_puts st) = [(0%nat, 7); (1%nat, 3); (0%nat, 2)].
Proof.
  destruct C57_C58_C59_C60_C61_instance as (_ & Hv & _).
  destruct (yrun demo_config identity (demo_start ++ demo_end) (yinit demo_config tt)) as [st| |] eqn:E; [|vm_compute in E; discriminate|vm_compute in E; discriminate].
  exists st. assert (Es : Some st = match yrun demo_config identity (demo_start ++ demo_end) (yinit demo_config tt) with Next st => Some st | _ => None end) by (by rewrite E).
  destruct (p_readers (y_pipe st) !! 1%nat) as [r|] eqn:Er.
  - exists r. split; [split; [exact Hv|exact E]|]. split; [reflexivity|].
    assert (Hr : Some r = match yrun demo_config identity (demo_start ++ demo_end) (yinit demo_config tt) with Next st => p_readers (y_pipe st) !! 1%nat | _ => None end) by (by rewrite E, Er).
    split; [|rewrite E in Es; clear -E]; [vm_compute in Hr; injection Hr as ->; by vm_compute|].
    assert (Hp : y_puts st = match yrun demo_config identity (demo_start ++ demo_end) (yinit demo_config tt) with Next st => y_puts st | _ => [] end) by (by rewrite E).
    rewrite Hp. by vm_compute.
  - exfalso. assert (Hr : None = match yrun demo_config identity (demo_start ++ demo_end) (yinit demo_config tt) with Next st => p_readers (y_pipe st) !! 1%nat | _ => None end) by (by rewrite E, Er).
    vm_compute in Hr. discriminate.
Qed.

(** The run of C70: proxies 0 and 1 accept the spans that proxy 2 emits. *)
Example C94_cluster_instance : exists st rec, reached join_cfg 3 2 join_once st rec /\ Forall valid_event (join_corrector (received rec 2)) /\
  fed (run (join_corrector (received rec 2))).2 = received rec 2 /\
  map (fun e => match e with LOut t (Emitted out) => (t, map s_id out) | _ => (0, []) end) (run (join_corrector (received rec 2))).2 =
    [(0, []); (0, []); (0, []); (0, []); (4, [8; 7]); (6, [5])] /\ map s_id (puts rec) = [7; 5; 8].
Proof. destruct C70_instance as (st & rec & q & x & H1 & _ & _ & _ & _ & _ & _ & _ & _ & H2 & H3 & H4 & H5). exists st, rec. split; [exact H1|]. split; [exact H2|]. split; [exact H3|]. split; [exact H4|exact H5]. Qed.
