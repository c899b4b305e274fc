(** Executions for C115. *)
From Coq Require Import Sorted.
From Verif Require Import Base SpanModel JsonModel CodecModel HandlerModel TreeModel TreeSpec TreeProofs FinishModel FinishSpec FinishProofs FinishWitness
  ForwardModel ForwardSpec PipelineModel PipelineSpec SystemModel SystemSpec ConnectSpec ConnectProofs WholeSpec WholeProofs OrderSpec OrderWitness UnseenSpec.

Definition unseen_env : environment := Env 300 (replicate 40 0) new_pool_entry (fun _ => None) (fun _ => None).
Definition unseen_acts (body : bytes) : list action :=
  match handle unseen_env (Request EV2 [] [] (Src [body] (EndEOF true))) with XDone acts => acts | _ => [] end.
(** Two services report about trace 7, the second one twice; another reports about trace 8. *)
Definition one_half : list action := unseen_acts (str "[{""id"":""7"",""traceId"":""7"",""timestamp"":100,""duration"":90},{""id"":""2"",""traceId"":""7"",""parentId"":""7"",""timestamp"":110,""duration"":50}]").
Definition other_half : list action := unseen_acts (str "[{""id"":""3"",""traceId"":""7"",""parentId"":""2"",""timestamp"":120,""duration"":20}]").
Definition elsewhere : list action := unseen_acts (str "[{""id"":""8"",""traceId"":""8"",""timestamp"":5,""duration"":6}]").
Definition unseen_config : sysconfig := SysConfig 2 (Config 1 [1; 1]%nat).
Definition unseen_conv : converter unit := fun u x => (u, (x, false)).

Definition deliver (n : nat) : list yevent :=
  YSend :: map YPipe ([PTake] ++ replicate n PConv ++ [PDone; PSend; PSend; PNext] ++
    concat (map (fun i => PRecv i :: replicate n (PRead i) ++ [PFinish i]) [0; 1]%nat)).
(** The handlers in turn, then a check at 9 s. *)
Definition course1 : list yevent :=
  [YRequest one_half; YRequest other_half; YAct 0; YAct 1; YRecv map_to_list 0 0; YAct 0; YAct 0; YRecv map_to_list 1 1; YAct 1; YRecv map_to_list 2 2;
   YTick (plain_tick (seconds 9))] ++ deliver 3.
(** The second one first, then trace 8, the first one at 4 s, the second one again at 5 s, checks at 8 s and 14 s. *)
Definition course2 : list yevent :=
  [YRequest other_half; YRequest elsewhere; YRequest one_half; YRequest other_half; YAct 0; YAct 0; YRecv map_to_list 0 0; YAct 1; YAct 1; YRecv map_to_list 1 1;
   YAct 2; YAct 2; YRecv map_to_list (seconds 4) (seconds 4); YRecv map_to_list (seconds 4) (seconds 4); YAct 2; YAct 3; YAct 3;
   YRecv map_to_list (seconds 5) (seconds 5); YTick (plain_tick (seconds 9))] ++ deliver 1 ++ [YTick (plain_tick (seconds 14))] ++ deliver 3.
(** The first one, a check at 9 s, the second one after that. *)
Definition course3 : list yevent :=
  [YRequest one_half; YAct 0; YAct 0; YRecv map_to_list 0 0; YRecv map_to_list 0 0; YAct 0; YTick (plain_tick (seconds 9))] ++ deliver 2 ++
  [YRequest other_half; YAct 1; YRecv map_to_list (seconds 10) (seconds 10); YAct 1].

Definition after (evs : list yevent) : ystate unit :=
  match yrun unseen_config unseen_conv evs (yinit unseen_config tt) with Next st => st | _ => yinit unseen_config tt end.

Definition seen (id parent ts dur : Z) : span := Span id parent 7 [] [] ts dur {[str "protocolVersion" := str "json v2"]} (Timings 0 0 0 0).
Definition top : span := seen 7 0 100000 90000.
Definition middle : span := seen 2 7 110000 50000.
Definition bottom : span := seen 3 2 120000 20000.
Definition whole : list span := [top; seen 3 2 100000 20000; seen 2 7 100000 50000].

#[local] Instance times_dec : EqDecision timings.
Proof. solve_decision. Defined.
#[local] Instance seen_dec : EqDecision span.
Proof. solve_decision. Defined.

(** Nothing left to do. *)
Definition quiet {S} (st : ystate S) : Prop :=
  Forall (fun h => h.2 = []) (y_handlers st) /\ y_input st = [] /\ y_out st = [] /\ p_source (y_pipe st) = [] /\
  p_fwd (y_pipe st) = FIdle /\ Forall (fun q => q = []) (p_queues (y_pipe st)) /\ Forall (fun r => rd_cur r = None) (p_readers (y_pipe st)).
Definition quietb {S} (st : ystate S) : bool :=
  forallb (fun h => match h.2 with [] => true | _ => false end) (y_handlers st) && (match y_input st with [] => true | _ => false end) &&
  (match y_out st with [] => true | _ => false end) && (match p_source (y_pipe st) with [] => true | _ => false end) &&
  (match p_fwd (y_pipe st) with FIdle => true | _ => false end) && forallb (fun q => match q with [] => true | _ => false end) (p_queues (y_pipe st)) &&
  forallb (fun r => match rd_cur r with None => true | _ => false end) (p_readers (y_pipe st)).
Lemma quietb_spec {S} (st : ystate S) : quietb st = true -> quiet st.
Proof.
  unfold quietb, quiet. rewrite !andb_true_iff, !forallb_forall. intros [[[[[[H1 H2] H3] H4] H5] H6] H7]. repeat split.
  - apply Forall_forall. intros x Hx. apply elem_of_list_In in Hx. specialize (H1 x Hx). by destruct (x.2).
  - by destruct (y_input st).
  - by destruct (y_out st).
  - by destruct (p_source _).
  - by destruct (p_fwd _).
  - apply Forall_forall. intros x Hx. apply elem_of_list_In in Hx. specialize (H6 x Hx). by destruct x.
  - apply Forall_forall. intros x Hx. apply elem_of_list_In in Hx. specialize (H7 x Hx). by destruct (rd_cur x).
Qed.
Lemma quiet_stopped {S} cfg (conv : converter S) st : quiet st -> ystopped cfg conv st.
Proof.
  destruct st as [hs inp puts corr log out [h s src f qs rs]]. intros (Hh & Hi & Ho & Hs & Hf & Hq & Hrd).
  cbn [y_handlers y_input y_out y_pipe p_source p_fwd p_queues p_readers] in *. subst inp out src f.
  intros e He. destruct e as [acts|i|ord n0 n1|k| |e]; try done.
  - cbn [ystep]. destruct (hs !! i) as [[did todo]|] eqn:E; [|done]. apply (Forall_lookup_1 _ _ _ _ Hh) in E. cbn in E. by subst todo.
  - cbn [ystep]. destruct e as [t| | | | | |i|i|i]; try done; cbn [pstep].
    + destruct (qs !! i) as [q|] eqn:E; [|done]. apply (Forall_lookup_1 _ _ _ _ Hq) in E. by subst q.
    + destruct (rs !! i) as [[l c]|] eqn:E; [|done]. apply (Forall_lookup_1 _ _ _ _ Hrd) in E. cbn in E. by subst c.
    + destruct (rs !! i) as [[l c]|] eqn:E; [|done]. apply (Forall_lookup_1 _ _ _ _ Hrd) in E. cbn in E. by subst c.
Qed.

Lemma acts_from body acts : handle unseen_env (Request EV2 [] [] (Src [body] (EndEOF true))) = XDone acts -> valid_yevent (YRequest (unseen_acts body)).
Proof. intros E. unfold unseen_acts. rewrite E. by eexists _, _. Qed.
Lemma one_half_valid : valid_yevent (YRequest one_half).
Proof. eapply acts_from. vm_compute. reflexivity. Qed.
Lemma other_half_valid : valid_yevent (YRequest other_half).
Proof. eapply acts_from. vm_compute. reflexivity. Qed.
Lemma elsewhere_valid : valid_yevent (YRequest elsewhere).
Proof. eapply acts_from. vm_compute. reflexivity. Qed.
Ltac course_ok :=
  cbn [app deliver map replicate concat]; repeat (apply Forall_cons_2; [first [exact one_half_valid|exact other_half_valid|exact elsewhere_valid|apply plain_valid|apply map_order_list|exact I]|]);
  apply Forall_nil_2.
Lemma reaches evs : Forall valid_yevent evs -> (match yrun unseen_config unseen_conv evs (yinit unseen_config tt) with Next _ => true | _ => false end) = true ->
  yreachable unseen_config unseen_conv tt evs (after evs).
Proof. intros Hv H. split; [done|]. unfold after. by destruct (yrun _ _ _ _). Qed.
Lemma course1_reaches : yreachable unseen_config unseen_conv tt course1 (after course1).
Proof. apply reaches; [unfold course1; course_ok|]. vm_compute. reflexivity. Qed.
Lemma course2_reaches : yreachable unseen_config unseen_conv tt course2 (after course2).
Proof. apply reaches; [unfold course2; course_ok|]. vm_compute. reflexivity. Qed.
Lemma course3_reaches : yreachable unseen_config unseen_conv tt course3 (after course3).
Proof. apply reaches; [unfold course3; course_ok|]. vm_compute. reflexivity. Qed.

Lemma quiet1 : quiet (after course1).
Proof. apply quietb_spec. vm_compute. reflexivity. Qed.
Lemma quiet2 : quiet (after course2).
Proof. apply quietb_spec. vm_compute. reflexivity. Qed.

Lemma undisturbed1 : undisturbed 7 (seconds 8) (after course1).
Proof.
  split; [by vm_compute|]. split; [apply ascending_sorted; by vm_compute|]. split; [apply briskb_spec; by vm_compute|].
  split; [apply calmb_spec; by vm_compute|]. by vm_compute.
Qed.
Lemma undisturbed2 : undisturbed 7 (seconds 8) (after course2).
Proof.
  split; [by vm_compute|]. split; [apply ascending_sorted; by vm_compute|]. split; [apply briskb_spec; by vm_compute|].
  split; [apply calmb_spec; by vm_compute|]. by vm_compute.
Qed.
Lemma told1 : told 7 (after course1) = [top; bottom; middle].
Proof. vm_compute. reflexivity. Qed.
Lemma told2 : told 7 (after course2) = [bottom; top; middle; bottom].
Proof. vm_compute. reflexivity. Qed.
Lemma told3 : told 7 (after course3) = [top; middle; bottom].
Proof. vm_compute. reflexivity. Qed.

Lemma in_emitted t l log : omap (fun e => match e with LOut t' (Emitted l) => if t' =? t then Some l else None | _ => None end) log = [l] -> LOut t (Emitted l) ∈ log.
Proof.
  intros E. assert (Hin := elem_of_list_here l []). rewrite <- E in Hin. clear E. apply elem_of_list_omap in Hin as (e & He & Hl).
  destruct e as [|a b c|t' o| |]; try done. destruct o; try done. destruct (Z.eqb_spec t' t) as [->|]; [|done]. by injection Hl as ->.
Qed.
Lemma emits1 : LOut 7 (Emitted whole) ∈ y_log (after course1).
Proof. apply in_emitted. apply (bool_decide_unpack _). by vm_compute. Qed.
Lemma emits2 : LOut 7 (Emitted whole) ∈ y_log (after course2).
Proof. apply in_emitted. apply (bool_decide_unpack _). by vm_compute. Qed.
Lemma emits3 : LOut 7 (Emitted [top; seen 2 7 100000 50000]) ∈ y_log (after course3).
Proof. apply in_emitted. apply (bool_decide_unpack _). by vm_compute. Qed.

Lemma told_orderly : orderly (told 7 (after course1)).
Proof.
  rewrite told1. intros x y Hx Hy E. left. rewrite !elem_of_cons, elem_of_nil in Hx, Hy.
  destruct Hx as [->|[->|[->|[]]]], Hy as [->|[->|[->|[]]]]; first [reflexivity|discriminate E].
Qed.
Lemma same12 : same_reports (told 7 (after course1)) (told 7 (after course2)).
Proof. rewrite told1, told2. intros s. rewrite !elem_of_cons, !elem_of_nil. tauto. Qed.
Lemma same13 : same_reports (told 7 (after course1)) (told 7 (after course3)).
Proof. rewrite told1, told3. intros s. rewrite !elem_of_cons, !elem_of_nil. tauto. Qed.
Lemma whole_root : one_root whole top /\ s_id top ∈ ids (told 7 (after course1)).
Proof.
  split; [|rewrite told1; apply elem_of_list_here]. split.
  - split; [apply elem_of_list_here|]. right. cbn [whole ids map s_id s_parent seen top]. rewrite !elem_of_cons, elem_of_nil. intros [H|[H|[H|[]]]]; discriminate H.
  - intros y [Hy Hr]. unfold whole in Hy. rewrite !elem_of_cons, elem_of_nil in Hy. destruct Hy as [->|[->|[->|[]]]]; [reflexivity|..]; exfalso;
      (destruct Hr as [Hr|Hr]; [discriminate Hr|]); apply Hr; cbn [whole ids map s_id s_parent seen top];
      [apply elem_of_list_further, elem_of_list_further, elem_of_list_here|apply elem_of_list_here].
Qed.
Lemma whole_straight x : x ∈ whole -> ~ circular whole x.
Proof.
  intros _. apply ranked_not_circular with (rank := fun s => if s_id s =? 7 then 0 else s_id s). intros p c Hp (Hc & E & Hne).
  unfold whole in Hp, Hc. rewrite !elem_of_cons, elem_of_nil in Hp, Hc.
  destruct Hp as [->|[->|[->|[]]]], Hc as [->|[->|[->|[]]]]; first [discriminate E|reflexivity|exfalso; apply Hne; reflexivity].
Qed.

(** Breaks show. *)
Lemma breaks_show :
  exists cfg (conv : converter unit) evs evs' st st' t p out out', yreachable cfg conv tt evs st /\ yreachable cfg conv tt evs' st' /\ t <> 0 /\
    undisturbed t p st /\ y_input st' = [] /\ steady (y_log st') /\ calm p (y_log st') /\ orderly (told t st) /\ same_reports (told t st) (told t st') /\
    LOut t (Emitted out) ∈ y_log st /\ LOut t (Emitted out') ∈ y_log st' /\ (exists r, one_root out r /\ s_id r ∈ ids (told t st)) /\
    (forall x, x ∈ out -> ~ circular out x) /\ length out' <> length out.
Proof.
  exists unseen_config, unseen_conv, course1, course3, (after course1), (after course3), 7, (seconds 8), whole, [top; seen 2 7 100000 50000].
  split; [apply course1_reaches|]. split; [apply course3_reaches|]. split; [done|]. split; [apply undisturbed1|]. split; [by vm_compute|].
  split; [apply ascending_sorted; by vm_compute|]. split; [apply calmb_spec; by vm_compute|]. split; [apply told_orderly|]. split; [apply same13|].
  split; [apply emits1|]. split; [apply emits3|]. split; [exists top; apply whole_root|]. split; [apply whole_straight|done].
Qed.
