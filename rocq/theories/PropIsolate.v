(** Property C103: traces influence one another only through the load and the blacklist. *)
From Verif Require Import Base SpanModel TreeModel TreeSpec FinishModel FinishSpec FinishProofs FinishWitness JsonModel CodecModel HandlerModel HandlerSpec ForwardModel PipelineModel SystemModel SystemSpec
  IsolateSpec IsolateProofs IsolateWitness IsolateSystem PropSystem.

(** C103: if the spans of a trace and the checks came at the same times in two runs, the loads meant the same, and the trace was never
    forgotten from the blacklist, then everything that happened to the trace is the same, whatever else came, in any iteration order. *)
Theorem C103_isolated :
  forall evs evs' t, Forall valid_event evs -> Forall valid_event evs' -> Forall2 alike (List.filter (own t) evs) (List.filter (own t) evs') ->
  (forall i l l', loads (run evs).2 !! i = Some l -> loads (run evs').2 !! i = Some l' -> patience l = patience l' /\ l <= 100000 /\ l' <= 100000) ->
  LEvict t ∉ (run evs).2 -> LEvict t ∉ (run evs').2 -> about t (run evs).2 = about t (run evs').2.
Proof. exact isolated_pair. Qed.
Print Assumptions C103_isolated.

(** C103: with less than 40000 spans waiting at every check, it is as if the trace had come alone. *)
Theorem C103_alone :
  forall evs t, Forall valid_event evs -> Forall (fun l => l < 40000) (loads (run evs).2) -> LEvict t ∉ (run evs).2 ->
  about t (run evs).2 = about t (run (List.filter (own t) evs)).2.
Proof. exact alone. Qed.
Print Assumptions C103_alone.

(** C103 in the whole program: two proxies, differently configured and scheduled, with different requests, treat a trace alike if its
    spans reach their correctors at the same times. *)
Theorem C103_system :
  forall (S S' : Type) cfg cfg' (conv : converter S) (conv' : converter S') s0 s0' evs evs' st st' t,
  yreachable cfg conv s0 evs st -> yreachable cfg' conv' s0' evs' st' -> heard t (y_log st) = heard t (y_log st') ->
  (forall i l l', loads (y_log st) !! i = Some l -> loads (y_log st') !! i = Some l' -> patience l = patience l' /\ l <= 100000 /\ l' <= 100000) ->
  LEvict t ∉ y_log st -> LEvict t ∉ y_log st' -> about t (y_log st) = about t (y_log st').
Proof. exact @isolated_system. Qed.
Print Assumptions C103_system.

(** C103: without the bound on the load it is false; nothing is dropped for its size here, and nothing forgotten. *)
Theorem C103_load_refuted :
  exists evs t, Forall valid_event evs /\ Forall (fun l => l <= 100000) (loads (run evs).2) /\ LEvict t ∉ (run evs).2 /\
  about t (run evs).2 <> about t (run (List.filter (own t) evs)).2.
Proof. exact load_matters. Qed.
Print Assumptions C103_load_refuted.

(** C103: if a trace can be forgotten from the blacklist it is false. *)
Theorem C103_forgotten_refuted :
  exists evs t, Forall valid_event evs /\ Forall (fun l => l < 40000) (loads (run evs).2) /\
  about t (run evs).2 <> about t (run (List.filter (own t) evs)).2.
Proof. exact forgetting_matters. Qed.
Print Assumptions C103_forgotten_refuted.

(** Trace 9 is emitted at 12 s and, with a span that comes later, once more at 40 s; beside it the traces 5, which has two roots, and 4. *)
Example C103_instance :
  let sp id parent t := Span id parent t [] [] 1600000000000000000 10 ∅ (Timings 0 0 0 0) in
  let at_ n s := ESpan map_to_list (seconds n) (seconds n) s in
  let tick n := ETick (plain_tick (seconds n)) in
  let evs := [at_ 0 (sp 1 2 5); at_ 1 (sp 7 0 9); at_ 2 (sp 3 4 5); at_ 3 (sp 3 7 9); at_ 9 (sp 1 1 4); tick 12; tick 14; at_ 15 (sp 2 1 4); at_ 16 (sp 8 0 9); tick 40] in
  let short e := match e with LSpan _ n s => [0; n / 1000000000; s_id s] | LTick n _ _ => [1; n / 1000000000] | LOut _ (Emitted l) => 2 :: map s_id l | _ => [3] end in
  Forall valid_event evs /\ Forall (fun l => l < 40000) (loads (run evs).2) /\ LEvict 9 ∉ (run evs).2 /\ length (run evs).2 = 14%nat /\
  map short (about 9 (run evs).2) = [[0; 1; 7]; [0; 3; 3]; [1; 12]; [2; 7; 3]; [1; 14]; [0; 16; 8]; [1; 40]; [2; 8]] /\
  map short (heard 9 (run evs).2) = [[0; 1; 7]; [0; 3; 3]; [1; 12]; [1; 14]; [0; 16; 8]; [1; 40]].
Proof.
  split; [repeat (apply Forall_cons_2; [first [apply plain_valid|split; [apply map_order_list|unfold int64_ok; p2; cbn; lia]]|]); apply Forall_nil_2|].
  split; [apply loads_below; vm_compute; reflexivity|]. split; [apply never_evicted; vm_compute; reflexivity|]. repeat split; vm_compute; reflexivity.
Qed.

(** The run of C57, and another program with smaller and larger channels and one target that got the three spans of trace 7 in one
    request, and one of trace 8 among them. *)
Definition other_request : list action :=
  demo_request (str "[{""id"":""7"",""traceId"":""7""},{""id"":""5"",""traceId"":""8""},{""id"":""3"",""traceId"":""7"",""parentId"":""2""},{""id"":""2"",""traceId"":""7"",""parentId"":""7""}]").
Definition other_config : sysconfig := SysConfig 1 (Config 3 [2]%nat).
Definition other_run : list yevent :=
  [YRequest other_request; YAct 0; YRecv map_to_list 0 0; YAct 0; YRecv map_to_list 0 0; YAct 0; YRecv map_to_list 1 1; YAct 0; YRecv map_to_list 2 2; YTick (plain_tick (seconds 9))].

Example C103_system_instance :
  exists st st', yreachable demo_config identity tt (demo_start ++ demo_end) st /\ yreachable other_config identity tt other_run st' /\
  heard 7 (y_log st) = heard 7 (y_log st') /\ loads (y_log st) = [3] /\ loads (y_log st') = [4] /\
  length (y_log st) = 5%nat /\ length (y_log st') = 7%nat /\ length (about 7 (y_log st')) = 5%nat.
Proof.
  destruct C57_C58_C59_C60_C61_instance as (_ & Hv & _).
  destruct (yrun demo_config identity (demo_start ++ demo_end) (yinit demo_config tt)) as [st| |] eqn:E; [|vm_compute in E; discriminate|vm_compute in E; discriminate].
  destruct (yrun other_config identity other_run (yinit other_config tt)) as [st'| |] eqn:E'; [|vm_compute in E'; discriminate|vm_compute in E'; discriminate].
  assert (H : y_log st = match yrun demo_config identity (demo_start ++ demo_end) (yinit demo_config tt) with Next st => y_log st | _ => [] end) by (rewrite E; reflexivity).
  assert (H' : y_log st' = match yrun other_config identity other_run (yinit other_config tt) with Next st => y_log st | _ => [] end) by (rewrite E'; reflexivity).
  exists st, st'. split; [split; [exact Hv|exact E]|]. split; [split; [|exact E']|].
  - unfold other_run. constructor.
    { destruct (handle demo_env (Request EV2 [] [] (Src [str "[{""id"":""7"",""traceId"":""7""},{""id"":""5"",""traceId"":""8""},{""id"":""3"",""traceId"":""7"",""parentId"":""2""},{""id"":""2"",""traceId"":""7"",""parentId"":""7""}]"] (EndEOF true)))) as [acts| |] eqn:E0;
        [|vm_compute in E0; discriminate|vm_compute in E0; discriminate].
      unfold other_request, demo_request. rewrite E0. by eexists _, _. }
    repeat (constructor; [first [exact I|apply plain_valid|exact map_order_list|cbn [valid_yevent]; apply map_order_list]|]). constructor.
  - rewrite H, H'. clear. repeat split; vm_compute; reflexivity.
Qed.
