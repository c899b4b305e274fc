(** Properties C57-C61: the whole program (without Kafka). *)
From Verif Require Import Base SpanModel JsonModel JsonSpec CodecModel ParseSpec HandlerModel HandlerSpec TreeModel TreeSpec FinishModel FinishSpec FinishProofs FinishWitness
  ForwardModel ForwardSpec RingModel RingSpec DatadogModel DatadogSpec PipelineModel PipelineSpec
  SystemModel SystemSpec SystemProofs SystemTheorems SystemOrigin.

(** C57: whatever the schedule, what the corrector received and what waits in its channel are, in order, what the handlers
    put there, and every handler put a prefix of the spans of its request, in order. *)
Theorem C57_ingest :
  forall (S : Type) cfg (conv : converter S) s0 evs st, yreachable cfg conv s0 evs st ->
  map (fun h => h.1 ++ h.2) (y_handlers st) = requests evs /\
  (forall i h, y_handlers st !! i = Some h -> puts_of h.1 = by_handler i (y_puts st)) /\
  Forall (fun p => (p.1 < length (requests evs))%nat) (y_puts st) /\
  map snd (y_puts st) = SystemSpec.received (y_log st) ++ y_input st /\ (length (y_input st) <= z_input cfg)%nat.
Proof. exact @system_ingest. Qed.
Print Assumptions C57_ingest.

(** C57: once a request is answered, all its spans (202) or none (400) were put. *)
Theorem C57_answered :
  forall (S : Type) cfg (conv : converter S) s0 evs st i h c, yreachable cfg conv s0 evs st ->
  y_handlers st !! i = Some h -> Status c ∈ h.1 ->
  exists acts, requests evs !! i = Some acts /\ h = (acts, []) /\ by_handler i (y_puts st) = puts_of acts /\
    (c = 202 /\ accepts (by_handler i (y_puts st)) acts \/ c = 400 /\ by_handler i (y_puts st) = []).
Proof. exact @system_answered. Qed.
Print Assumptions C57_answered.

(** C57: what C36-C45 say of the corrector holds of its record in the program. *)
Theorem C57_record :
  forall (S : Type) cfg (conv : converter S) s0 evs st, yreachable cfg conv s0 evs st ->
  exists fevs, Forall valid_event fevs /\ run fevs = (Some (y_corr st), y_log st).
Proof. exact @system_record. Qed.
Print Assumptions C57_record.

(** C57: what each target finished, reads, and has in its channel, and the traces before that, are the emitted traces,
    converted, in order. *)
Theorem C57_delivers :
  forall (S : Type) cfg (conv : converter S) s0 evs st, yreachable cfg conv s0 evs st ->
  exists s1 ts, converts_all conv s0 (emitted (y_log st)) s1 ts /\
  length (p_queues (y_pipe st)) = length (g_targets (z_pipe cfg)) /\ length (p_readers (y_pipe st)) = length (g_targets (z_pipe cfg)) /\
  forall i q r, p_queues (y_pipe st) !! i = Some q -> p_readers (y_pipe st) !! i = Some r ->
  exists cur rest, ts = rd_log r ++ cur ++ map (read (p_heap (y_pipe st))) q ++ rest /\
    match rd_cur r with None => cur = [] | Some (_, pos, acc) => exists t, cur = [t] /\ acc = take pos t /\ (pos <= length t)%nat end /\
    length rest = (held (y_pipe st) i + length (p_source (y_pipe st)) + length (y_out st))%nat.
Proof. exact @system_delivers. Qed.
Print Assumptions C57_delivers.

Theorem C57_no_panic :
  forall (S : Type) cfg (conv : converter S) s0 evs, Forall valid_yevent evs -> yrun cfg conv evs (yinit cfg s0) <> Panicked.
Proof. exact @system_no_panic. Qed.
Print Assumptions C57_no_panic.

(** C58: the program can make a step, or every request is answered, every span was received, and every emitted trace has
    been delivered to every target. *)
Theorem C58_no_deadlock :
  forall (S : Type) cfg (conv : converter S) s0 evs st, positive_caps cfg -> yreachable cfg conv s0 evs st ->
  (exists e st', yinternal e /\ valid_yevent e /\ ystep cfg conv e st = Next st') \/
  (ystopped cfg conv st /\
   y_handlers st = map (fun acts => (acts, [])) (requests evs) /\ SystemSpec.received (y_log st) = map snd (y_puts st) /\
   exists s1 ts, converts_all conv s0 (emitted (y_log st)) s1 ts /\ map rd_log (p_readers (y_pipe st)) = replicate (length (g_targets (z_pipe cfg))) ts).
Proof. exact @system_progress. Qed.
Print Assumptions C58_no_deadlock.

(** C58: between requests and ticks it makes finitely many steps, and stops. *)
Theorem C58_terminates :
  forall (S : Type) cfg (conv : converter S) s0 evs st, yreachable cfg conv s0 evs st ->
  exists bound, forall evs' st', Forall yinternal evs' -> Forall valid_yevent evs' -> yrun cfg conv evs' st = Next st' -> (length evs' <= bound)%nat.
Proof. exact @system_terminates. Qed.
Print Assumptions C58_terminates.

Theorem C58_stops :
  forall (S : Type) cfg (conv : converter S) s0 evs st, positive_caps cfg -> yreachable cfg conv s0 evs st ->
  exists evs' st', Forall yinternal evs' /\ Forall valid_yevent evs' /\ yrun cfg conv evs' st = Next st' /\ ystopped cfg conv st'.
Proof. exact @system_can_drain. Qed.
Print Assumptions C58_stops.

(** C59: when the program has stopped and the corrector waits for nothing, every span it received for a trace not
    blacklisted then left with its trace; if that was emitted, the span was in it and all targets got the converted trace;
    if not, there was a reason (C37). *)
Theorem C59_fate :
  forall (S : Type) cfg (conv : converter S) s0 evs st l1 n0 n1 s l2, positive_caps cfg -> yreachable cfg conv s0 evs st ->
  ystopped cfg conv st -> f_traces (y_corr st) = ∅ -> y_log st = l1 ++ LSpan n0 n1 s :: l2 ->
  s_trace s <> 0 -> s_id s <> 0 -> ~ blacklisted l1 (s_trace s) ->
  exists l21 o l22, l2 = l21 ++ LOut (s_trace s) o :: l22 /\ entry_ok (l1 ++ LSpan n0 n1 s :: l21) (LOut (s_trace s) o) /\
    forall out, o = Emitted out -> s_id s ∈ ids out /\
      exists c c' out', converts conv c out c' out' /\ Forall (fun r => out' ∈ rd_log r) (p_readers (y_pipe st)).
Proof. exact @system_fate. Qed.
Print Assumptions C59_fate.

(** C59: that state is reached after a tick that comes 8 s after the last span. *)
Theorem C59_settles :
  forall (S : Type) cfg (conv : converter S) s0 evs st k, positive_caps cfg -> yreachable cfg conv s0 evs st -> ystopped cfg conv st -> valid_tick k ->
  (forall t, touched (pending (y_log st) t) <= k_now1 k - seconds 8) ->
  exists evs' st', Forall yinternal evs' /\ yreachable cfg conv s0 (evs ++ YTick k :: evs') st' /\ ystopped cfg conv st' /\ f_traces (y_corr st') = ∅.
Proof. exact @system_settles. Qed.
Print Assumptions C59_settles.

(** C60: every span that a target got is the conversion of a span of an emitted trace; this one was injected as a root, or
    its id and trace are those of a span put by the handler of some request. *)
Theorem C60_origin :
  forall (S : Type) cfg (conv : converter S) s0 evs st i r y, yreachable cfg conv s0 evs st -> p_readers (y_pipe st) !! i = Some r -> y ∈ concat (rd_log r) ->
  exists l1 t out l2 x, y_log st = l1 ++ LOut t (Emitted out) :: l2 /\ x ∈ out /\ s_trace x = t /\
    (exists c c', conv c x = (c', (y, false))) /\ s_id y <> 0 /\ s_trace y <> 0 /\
    ((exists f, injected t (merged_spans t (pending l1 t)) f /\ s_id x = s_id f) \/
     (exists j x0, (j, x0) ∈ y_puts st /\ (j < length (requests evs))%nat /\ s_trace x0 = t /\ s_id x0 = s_id x)).
Proof. exact @system_origin. Qed.
Print Assumptions C60_origin.

(** C61: the admin endpoint shows the most recent of the spans that its target got; all Datadog gets is the conversion of
    spans that its target got. *)
Theorem C61_ring :
  forall (S : Type) cfg (conv : converter S) s0 evs st i r cap, yreachable cfg conv s0 evs st -> p_readers (y_pipe st) !! i = Some r -> (0 < cap)%nat ->
  exists b, read_from (new_ring cap) (rd_log r) = Some b /\ to_slice b ≡ₚ lastn cap (concat (rd_log r)).
Proof. exact @system_ring. Qed.
Print Assumptions C61_ring.

Theorem C61_sink :
  forall (S : Type) cfg (conv : converter S) s0 evs st i r devs dst dlog l1 p l2 g d, yreachable cfg conv s0 evs st -> p_readers (y_pipe st) !! i = Some r ->
  traces_of devs = rd_log r -> Forall valid_devent devs -> drun devs = (dst, dlog) -> dlog = l1 ++ XSend p :: l2 -> g ∈ p -> d ∈ g ->
  exists y, y ∈ concat (rd_log r) /\ converted y d.
Proof. exact @system_sink. Qed.
Print Assumptions C61_sink.

(** Two requests whose handlers interleave; the trace is emitted at 8 s and read by both targets. *)
Definition demo_env : environment := Env 300 (replicate 40 0) new_pool_entry (fun _ => None) (fun _ => None).
Definition demo_request (body : bytes) : list action :=
  match handle demo_env (Request EV2 [] [] (Src [body] (EndEOF true))) with XDone acts => acts | _ => [] end.
Definition demo1 : list action := demo_request (str "[{""id"":""7"",""traceId"":""7""},{""id"":""2"",""traceId"":""7"",""parentId"":""7""}]").
Definition demo2 : list action := demo_request (str "[{""id"":""3"",""traceId"":""7"",""parentId"":""2""}]").
Definition demo_config : sysconfig := SysConfig 2 (Config 1 [1; 1]%nat).
Definition identity : converter unit := fun u x => (u, (x, false)).
Definition demo_start : list yevent :=
  [YRequest demo1; YRequest demo2; YAct 0; YAct 1; YRecv map_to_list 0 0; YAct 0; YAct 0; YRecv map_to_list 1 1; YAct 1; YRecv map_to_list 2 2].
Definition demo_end : list yevent :=
  YTick (plain_tick (seconds 9)) :: YSend :: map YPipe [PTake; PConv; PConv; PConv; PDone; PSend; PSend; PNext;
    PRecv 1; PRead 1; PRecv 0; PRead 0; PRead 1; PRead 1; PFinish 1; PRead 0; PRead 0; PFinish 0].

Example C57_C58_C59_C60_C61_instance :
  positive_caps demo_config /\ Forall valid_yevent (demo_start ++ demo_end) /\
  match yrun demo_config identity demo_start (yinit demo_config tt) with
  | Next st =>
      map (fun h => map (fun a => match a with Put s => s_id s | Status c => c end) h.1) (y_handlers st) = [[7; 2; 202]; [3; 202]] /\
      map (fun p => (p.1, s_id p.2)) (y_puts st) = [(0%nat, 7); (1%nat, 3); (0%nat, 2)] /\
      yrun demo_config identity [YSend] st = Blocked /\
      match yrun demo_config identity demo_end st with
      | Next st' => map (fun r => map (map s_id) (rd_log r)) (p_readers (y_pipe st')) = [[[7; 3; 2]]; [[7; 3; 2]]] /\ map_to_list (f_traces (y_corr st')) = []
      | _ => False end
  | _ => False end.
Proof.
  split; [unfold positive_caps, demo_config; cbn [z_input z_pipe g_source g_targets]; repeat split; [lia|lia|repeat (constructor; [lia|]); constructor]|]. split; [|vm_compute; repeat split].
  assert (Hreq : forall body acts, handle demo_env (Request EV2 [] [] (Src [body] (EndEOF true))) = XDone acts -> valid_yevent (YRequest (demo_request body))).
  { intros body acts E. unfold demo_request. rewrite E. by eexists _, _. }
  unfold demo_start, demo_end. apply Forall_app. split.
  - constructor; [eapply Hreq; vm_compute; reflexivity|]. constructor; [eapply Hreq; vm_compute; reflexivity|].
    repeat (constructor; [first [exact I|exact map_order_list|cbn [valid_yevent]; apply map_order_list]|]). constructor.
  - constructor; [apply plain_valid|]. repeat (constructor; [done|]). constructor.
Qed.
