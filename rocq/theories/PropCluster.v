(** Properties C66-C69: several proxies that share a Kafka topic. *)
From Verif Require Import Base SpanModel JsonModel CodecModel HandlerModel AcceptSpec BinaryModel BinarySpec PipelineModel ConsumeModel ReplaySpec ClusterModel ClusterSpec ClusterProofs ClusterRuns ClusterBlock OversizeWitness ClusterCatch ClusterCommit.

(** C66: when an offset has been committed, the callback has been called before with the span of every message from
    where reading began up to that offset. *)
Theorem C66_at_least_once :
  forall cfg n parts evs st rec r1 p c r2, reached cfg n parts evs st rec -> rec = r1 ++ RCommit p c :: r2 ->
  exists o l, reading r1 p = Some (o, l) /\
  forall q k m s, z_parts st !! p = Some q -> (o <= k < c)%nat -> q_log q !! k = Some m -> carries m s -> exists i, RCall p k i s ∈ r1.
Proof. exact at_least_once. Qed.
Print Assumptions C66_at_least_once.

(** C66: the offset after the last message that was handled can be committed, and an owner that gives the partition up
    with a commit leaves the next one nothing to read again. *)
Theorem C66_commits :
  forall cfg n parts evs st rec p q c o, reached cfg n parts evs st rec -> z_parts st !! p = Some q -> q_claim q = Some c -> session rec p = Some o ->
  exists evs' st' q', (evs' = [KCommit p] \/ evs' = [KMark p; KCommit p]) /\ reached cfg n parts (evs ++ evs') st' (rec ++ [RCommit p (S o)]) /\
    z_parts st' !! p = Some q' /\ q_log q' = q_log q /\ q_committed q' = Some (S o).
Proof. exact commits. Qed.
Print Assumptions C66_commits.

Theorem C66_closes :
  forall cfg n parts evs st rec p q c o, reached cfg n parts evs st rec -> z_parts st !! p = Some q -> q_claim q = Some c -> session rec p = Some o ->
  c_phase c = CWaiting -> forall i, is_Some (z_proxies st !! i) ->
  exists st', reached cfg n parts (evs ++ [KClose p true; KOpen p i]) st' (rec ++ [RCommit p (S o); ROpen p i (S o)]).
Proof. exact closes. Qed.
Print Assumptions C66_closes.

(** C66: every call is for a span that an HTTP handler accepted before, by an owner of the partition of its trace;
    what a corrector receives was handed over before by such a call. *)
Theorem C66_origin :
  forall cfg n parts evs st rec r1 p k i s r2, reached cfg n parts evs st rec -> rec = r1 ++ RCall p k i s :: r2 ->
  (exists j, RPut j s ∈ r1) /\ (exists o, ROpen p i o ∈ r1) /\ p = home cfg (s_trace s).
Proof. exact call_origin. Qed.
Print Assumptions C66_origin.

Theorem C66_received :
  forall cfg n parts evs st rec r1 i s r2, reached cfg n parts evs st rec -> rec = r1 ++ RRecv i s :: r2 ->
  exists k, RCall (home cfg (s_trace s)) k i s ∈ r1.
Proof. exact recv_origin. Qed.
Print Assumptions C66_received.

(** C66: no message is skipped as undecodable. *)
Theorem C66_no_skip : forall cfg n parts evs st rec p o, reached cfg n parts evs st rec -> RSkip p o ∉ rec.
Proof. exact no_skip. Qed.
Print Assumptions C66_no_skip.

(** C66: every span that was accepted is on its way, in Kafka, or in the record of losses, once. *)
Theorem C66_accounting :
  forall cfg n parts evs st rec, reached cfg n parts evs st rec ->
  exists so ss sl, Forall2 carries (outgoing_msgs st) so /\ Forall2 carries (stored st) ss /\ Forall2 carries (lost_msgs rec) sl /\
    puts rec ≡ₚ outgoing_spans st ++ so ++ ss ++ sl ++ lost_spans rec.
Proof. exact accounted. Qed.
Print Assumptions C66_accounting.

Theorem C66_no_panic : forall cfg evs st rec, exists st' rec', krun cfg evs st rec = Next (st', rec').
Proof. exact krun_no_panic. Qed.
Print Assumptions C66_no_panic.

(** C66 fails for messages before the first commit of a partition: an owner that starts at offset 0 and dies before it
    has committed anything is followed by one that starts at the end of the log.  Nothing is lost on the way to
    Kafka, all messages up to offset 2 are committed, and the first span reaches no corrector. *)
Theorem C66_first_commit_refuted :
  exists st rec, reached skip_cfg 2 1 skip_events st rec /\
  outgoing_spans st = [] /\ outgoing_msgs st = [] /\ lost_msgs rec = [] /\ lost_spans rec = [] /\
  RCommit 0 2 ∈ rec /\ ROpen 0 1 0 ∈ rec /\ puts rec = [skip_span 7; skip_span 8] /\ handled rec 0 = [1%nat] /\ forall i, skip_span 7 ∉ received rec i.
Proof. exact skipped. Qed.
Print Assumptions C66_first_commit_refuted.

(** C67: if the partition of a trace has had one owner [i] which read it from the beginning to the end, then the spans
    of the trace that any proxies accepted are those that the corrector of [i] received and those that did not get
    into Kafka; no other corrector received any. *)
Theorem C67_meeting :
  forall cfg n parts evs st rec t i x q, reached cfg n parts evs st rec ->
  z_parts st !! home cfg t = Some q -> opened rec (home cfg t) = 1%nat -> ROpen (home cfg t) i 0 ∈ rec ->
  length (handled rec (home cfg t)) = length (q_log q) -> ~ crashed rec i -> z_proxies st !! i = Some x -> x_kafka x = [] ->
  (exists so sl, Forall2 carries (outgoing_msgs st) so /\ Forall2 carries (lost_msgs rec) sl /\
     of_trace t (puts rec) ≡ₚ of_trace t (received rec i) ++ of_trace t (outgoing_spans st ++ so ++ sl ++ lost_spans rec)) /\
  forall j, j <> i -> of_trace t (received rec j) = [].
Proof. exact meeting. Qed.
Print Assumptions C67_meeting.

(** C68: if one proxy has been the owner of a partition in all sessions, then what its corrector received of a trace is
    a reading, with returns, of what the log holds of the trace. *)
Theorem C68_reading :
  forall cfg n parts evs st rec t i x q c o, reached cfg n parts evs st rec ->
  (forall j o, ROpen (home cfg t) j o ∈ rec -> j = i) -> ~ crashed rec i -> z_proxies st !! i = Some x -> x_kafka x = [] ->
  z_parts st !! home cfg t = Some q -> q_claim q = Some c -> handled_to c = length (q_log q) ->
  reading rec (home cfg t) = Some (o, handled rec (home cfg t)) ->
  exists ss, Forall2 carries (drop o (q_log q)) ss /\ read_whole (of_trace t ss) (of_trace t (received rec i)).
Proof. exact reading_returns. Qed.
Print Assumptions C68_reading.

(** C68: an owner whose channel has room for a span can always read on to the end of the log by its own steps and those
    of its corrector, taking every message once. *)
Theorem C68_catches_up :
  forall cfg n parts evs st rec p q c, reached cfg n parts evs st rec -> (0 < g_kafka cfg)%nat -> z_parts st !! p = Some q -> q_claim q = Some c ->
  exists evs' st' rec' q' c' x', Forall (fun e => e = KNext p \/ e = KCall p \/ e = KMark p \/ e = KRecv (c_owner c)) evs' /\
    reached cfg n parts (evs ++ evs') st' (rec ++ rec') /\
    z_parts st' !! p = Some q' /\ q_log q' = q_log q /\ q_claim q' = Some c' /\ c_owner c' = c_owner c /\ handled_to c' = length (q_log q) /\
    z_proxies st' !! c_owner c = Some x' /\ x_kafka x' = [] /\ handled rec' p = seq (handled_to c) (length (q_log q) - handled_to c).
Proof. exact catches_up. Qed.
Print Assumptions C68_catches_up.

(** C69: the channels of a proxy stay within their capacities. *)
Theorem C69_bounded :
  forall cfg n parts evs st rec i x, reached cfg n parts evs st rec -> z_proxies st !! i = Some x ->
  (length (x_http x) <= g_http cfg)%nat /\ (length (x_input x) <= g_input cfg)%nat /\ (x_errors x <= g_errors cfg)%nat /\ (length (x_kafka x) <= g_kafka cfg)%nat.
Proof. exact bounded. Qed.
Print Assumptions C69_bounded.

(** C69 (refuted): spans above the producer's size limit stop a proxy.  For every configuration: after so many of them
    that the channel of errors and the channels before it are full, the HTTP handlers of the proxy wait until it is
    started again, whatever happens otherwise. *)
Theorem C69_blocked_refuted :
  forall cfg n parts i s ord, (i < n)%nat -> (0 < g_http cfg)%nat -> (0 < g_input cfg)%nat -> wire_ok s -> (forall m, iteration_order (ord m) m) ->
  (forall m, encode_msg (ord (s_tags s)) s = Some m -> g_limit cfg < msg_size m) ->
  exists evs st rec, reached cfg n parts evs st rec /\ KCrash i ∉ evs /\ puts rec = replicate (g_errors cfg + g_input cfg + 1 + g_http cfg) s /\
    forall evs' st' rec', KCrash i ∉ evs' -> krun cfg evs' st rec = Next (st', rec') -> forall s', kstep cfg (KPut i s') st' = Blocked.
Proof. exact blocked_forever. Qed.
Print Assumptions C69_blocked_refuted.

(** C69 (refuted): with the configuration of main.go, 385 times the same version 2 request are enough; each time the
    handler puts one span and answers 202. *)
Theorem C69_main_refuted :
  forall part n parts i, (i < n)%nat ->
  exists env q s evs st rec, pooled_memory env /\ q_endpoint q = EV2 /\ handle env q = XDone [Put s; Status 202] /\
    reached (main_kconfig part) n parts evs st rec /\ KCrash i ∉ evs /\ puts rec = replicate 385 s /\
    forall evs' st' rec', KCrash i ∉ evs' -> krun (main_kconfig part) evs' st rec = Next (st', rec') -> forall s', kstep (main_kconfig part) (KPut i s') st' = Blocked.
Proof. exact request_blocks. Qed.
Print Assumptions C69_main_refuted.

(** C69: as long as all spans and messages on their way fit, the proxy gets rid of them by its own steps, and its
    handlers go on. *)
Theorem C69_goes_on :
  forall cfg n parts evs st rec i x, reached cfg n parts evs st rec -> (0 < g_input cfg)%nat -> (0 < g_http cfg)%nat -> z_proxies st !! i = Some x ->
  Forall (fits cfg) (x_http x) -> Forall (fun m => msg_size m <= g_limit cfg) (match x_hold x with Some m => [m] | None => [] end ++ x_input x) ->
  exists evs' st', Forall (sends i) evs' /\ reached cfg n parts (evs ++ evs') st' rec /\ z_parts st' = z_parts st /\
    (exists x', z_proxies st' !! i = Some x' /\ x_http x' = [] /\ x_hold x' = None /\ x_input x' = []) /\
    forall s, exists st2, kstep cfg (KPut i s) st' = Next (st2, [RPut i s]).
Proof. exact goes_on. Qed.
Print Assumptions C69_goes_on.

(** Three proxies and two partitions.  Proxy 2 reads partition 0, where the traces with even ids are.  Proxies 0 and 1
    accept spans of the traces 4 and 5; proxy 0 dies with a span of trace 5.  Proxy 2 receives both spans of trace 4. *)
Definition example_cfg : kconfig := KConfig 2 2 2 2 1000 (fun k => Z.to_nat (hd 0 k mod 2)).
Definition example_span (t id : Z) : span := new_span (str "a") t id 0.
Definition send (i : nat) (s : span) : list kevent := [KPut i s; KTake i map_to_list; KInput i; KDispatch i; KWrite i 0].
Definition consume (p i : nat) : list kevent := [KNext p; KCall p; KMark p; KRecv i].
Definition meeting_events : list kevent :=
  [KOpen 0 2] ++ send 0 (example_span 4 7) ++ consume 0 2 ++ send 1 (example_span 4 8) ++ [KPut 0 (example_span 5 9); KCrash 0] ++ consume 0 2 ++ [KCommit 0].

Lemma example_span_ok t id : int64_ok t -> int64_ok id -> wire_ok (example_span t id).
Proof.
  intros Ht Hi. split; [repeat split; cbn; unfold int64_ok in *; lia|]. split; [unfold wire_string; cbn; lia|]. split; [unfold wire_string; cbn; lia|].
  split; [|by cbn]. intros k v H. cbn in H. by rewrite lookup_empty in H.
Qed.
Ltac valid := repeat (apply Forall_cons; split;
  [first [exact I|apply example_span_ok; unfold int64_ok; lia|intros m; unfold iteration_order; reflexivity]|]); apply Forall_nil_2.
Ltac no_crash := intros (ss & ms & H); repeat (apply elem_of_cons in H as [H|H]; [discriminate H|]); by apply elem_of_nil in H.

Example C66_C67_instance :
  exists st rec q x, reached example_cfg 3 2 meeting_events st rec /\ ~ crashed rec 2 /\
  z_parts st !! home example_cfg 4 = Some q /\ opened rec (home example_cfg 4) = 1%nat /\ ROpen (home example_cfg 4) 2 0 ∈ rec /\
  length (handled rec (home example_cfg 4)) = length (q_log q) /\ z_proxies st !! 2%nat = Some x /\ x_kafka x = [] /\
  RCommit 0 2 ∈ rec /\ lost_spans rec = [example_span 5 9] /\ map s_id (received rec 2) = [7; 8] /\ map s_id (puts rec) = [7; 8; 9].
Proof.
  destruct (krun example_cfg meeting_events (kinit 3 2) []) as [[st rec]| |] eqn:E; [|vm_compute in E; discriminate|vm_compute in E; discriminate].
  vm_compute in E. injection E as <- <-. eexists _, _, _, _. split; [split; [valid|reflexivity]|]. split; [no_crash|]. split; [vm_compute; reflexivity|].
  repeat (split; [first [vm_compute; reflexivity|vm_compute; repeat first [apply elem_of_list_here|apply elem_of_list_further]]|]). reflexivity.
Qed.

(** The same proxy is the owner three times; the second session ends without a commit, so that offset 1 is read again. *)
Definition reading_events : list kevent :=
  [KOpen 0 2] ++ send 0 (example_span 4 7) ++ consume 0 2 ++ [KCommit 0; KClose 0 false; KOpen 0 2] ++
  send 1 (example_span 4 8) ++ consume 0 2 ++ [KClose 0 false; KOpen 0 2] ++ consume 0 2 ++ send 0 (example_span 4 9) ++ consume 0 2.

Example C68_instance :
  exists st rec q c x, reached example_cfg 3 2 reading_events st rec /\ ~ crashed rec 2 /\
  z_parts st !! home example_cfg 4 = Some q /\ q_claim q = Some c /\ handled_to c = length (q_log q) /\
  reading rec (home example_cfg 4) = Some (0%nat, handled rec (home example_cfg 4)) /\ z_proxies st !! 2%nat = Some x /\ x_kafka x = [] /\
  map s_id (received rec 2) = [7; 8; 8; 9] /\ length (q_log q) = 3%nat /\ session rec (home example_cfg 4) = Some 2%nat /\ c_phase c = CWaiting.
Proof.
  destruct (krun example_cfg reading_events (kinit 3 2) []) as [[st rec]| |] eqn:E; [|vm_compute in E; discriminate|vm_compute in E; discriminate].
  vm_compute in E. injection E as <- <-. eexists _, _, _, _, _. split; [split; [valid|reflexivity]|]. split; [no_crash|]. split; [vm_compute; reflexivity|]. split; [vm_compute; reflexivity|].
  repeat (split; [vm_compute; reflexivity|]). reflexivity.
Qed.

(** The hypotheses of [C69_blocked_refuted] are met by the configuration of main.go and a span with 100 long tags. *)
Example C69_instance :
  (exists s, wire_ok s /\ forall part ord m, iteration_order ord (s_tags s) -> encode_msg ord s = Some m -> g_limit (main_kconfig part) < msg_size m) /\
  fits example_cfg (example_span 4 7) /\ (0 < g_input (main_kconfig (fun _ => 0%nat)))%nat.
Proof.
  split; [exact big_span_ok|]. split; [|cbn; lia].
  intros ord m Ho E. unfold iteration_order in Ho. cbn [example_span new_span s_tags] in Ho. rewrite map_to_list_empty in Ho. apply Permutation_nil_r in Ho as ->.
  vm_compute in E. injection E as <-. vm_compute. discriminate.
Qed.
