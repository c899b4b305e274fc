(** Ingestion, delivery, progress of the whole program, and the fate of every span (C57-C59). *)
From Verif Require Import Base SpanModel JsonModel CodecModel HandlerModel HandlerSpec HandlerProofs TreeModel TreeSpec FinishModel FinishSpec FinishTheorems
  ForwardModel ForwardSpec ForwardProofs PipelineModel PipelineSpec PipelineProofs PipelineTheorems SystemModel SystemSpec SystemProofs.

Lemma system_no_panic {S} cfg (conv : converter S) s0 evs : Forall valid_yevent evs -> yrun cfg conv evs (yinit cfg s0) <> Panicked.
Proof. intros Hv H. pose proof (yrun_ok cfg conv s0 evs [] _ (yinv_init cfg conv s0) Hv) as Hr. by rewrite H in Hr. Qed.

Lemma system_ingest {S} cfg (conv : converter S) s0 evs st : yreachable cfg conv s0 evs st ->
  map (fun h => h.1 ++ h.2) (y_handlers st) = requests evs /\
  (forall i h, y_handlers st !! i = Some h -> puts_of h.1 = by_handler i (y_puts st)) /\
  Forall (fun p => (p.1 < length (requests evs))%nat) (y_puts st) /\
  map snd (y_puts st) = received (y_log st) ++ y_input st /\ (length (y_input st) <= z_input cfg)%nat.
Proof. intros Hr. destruct (yreachable_inv _ _ _ _ _ Hr) as [? ? ? ? ? ? _ _]. done. Qed.

Lemma requests_valid evs acts : Forall valid_yevent evs -> acts ∈ requests evs -> exists env q, handle env q = XDone acts.
Proof.
  induction 1 as [|e evs He _ IH]; [by intros H%elem_of_nil|]. rewrite requests_cons. intros [H|H]%elem_of_app; [|by apply IH].
  destruct e; try by apply elem_of_nil in H. apply elem_of_list_singleton in H as ->. apply He.
Qed.

Lemma puts_of_map l : puts_of (map Put l) = l.
Proof. induction l as [|x l IH]; [done|]. change (puts_of (map Put (x :: l))) with (x :: puts_of (map Put l)). by rewrite IH. Qed.

Lemma system_answered {S} cfg (conv : converter S) s0 evs st i h c : yreachable cfg conv s0 evs st ->
  y_handlers st !! i = Some h -> Status c ∈ h.1 ->
  exists acts, requests evs !! i = Some acts /\ h = (acts, []) /\ by_handler i (y_puts st) = puts_of acts /\
    (c = 202 /\ accepts (by_handler i (y_puts st)) acts \/ c = 400 /\ by_handler i (y_puts st) = []).
Proof.
  intros Hr Hi Hc. destruct (system_ingest _ _ _ _ _ Hr) as (Hreq & Hputs & _). destruct h as [did todo]. cbn [fst] in *.
  assert (Hra : requests evs !! i = Some (did ++ todo)) by (rewrite <- Hreq; rewrite list_lookup_fmap, Hi; done).
  exists (did ++ todo). split; [done|]. specialize (Hputs i _ Hi). cbn [fst] in Hputs.
  destruct (requests_valid evs (did ++ todo)) as (env & q & Hh); [apply Hr|by eapply elem_of_list_lookup_2|].
  destruct (handle_shape env q _ Hh) as [(spans & body & _ & _ & _ & Ha)|Hrej].
  - unfold accepts in Ha. apply elem_of_list_split in Hc as (l1 & l2 & ->). rewrite <- app_assoc in Ha. cbn [app] in Ha.
    assert (Hend : l2 ++ todo = [] /\ l1 = map Put spans /\ c = 202).
    { clear -Ha. revert l1 Ha. induction spans as [|x spans IH]; intros l1 Ha; destruct l1 as [|a l1]; cbn in *.
      - injection Ha as -> E. done.
      - injection Ha as _ E. by destruct l1.
      - done.
      - injection Ha as -> E. destruct (IH _ E) as (H1 & -> & H3). done. }
    destruct Hend as (Hnil & -> & ->). apply app_nil in Hnil as [-> ->]. rewrite app_nil_r. split; [done|]. split; [by rewrite <- Hputs|]. left. split; [done|].
    unfold accepts. rewrite <- Hputs, puts_of_app. cbn. by rewrite app_nil_r, puts_of_map.
  - unfold rejects in Hrej. destruct did as [|a did]; [by apply elem_of_nil in Hc|]. cbn in Hrej. injection Hrej as -> E. apply app_nil in E as [-> ->].
    apply elem_of_list_singleton in Hc. injection Hc as ->. split; [done|]. split; [by rewrite <- Hputs|]. right. split; [done|]. by rewrite <- Hputs.
Qed.

Lemma system_record {S} cfg (conv : converter S) s0 evs st : yreachable cfg conv s0 evs st ->
  exists fevs, Forall valid_event fevs /\ run fevs = (Some (y_corr st), y_log st).
Proof. intros Hr. by destruct (yreachable_inv _ _ _ _ _ Hr). Qed.

Lemma system_delivers {S} cfg (conv : converter S) s0 evs st : yreachable cfg conv s0 evs st ->
  exists s1 ts, converts_all conv s0 (emitted (y_log st)) s1 ts /\
  length (p_queues (y_pipe st)) = length (g_targets (z_pipe cfg)) /\ length (p_readers (y_pipe st)) = length (g_targets (z_pipe cfg)) /\
  forall i q r, p_queues (y_pipe st) !! i = Some q -> p_readers (y_pipe st) !! i = Some r ->
  exists cur rest, ts = rd_log r ++ cur ++ map (read (p_heap (y_pipe st))) q ++ rest /\
    match rd_cur r with None => cur = [] | Some (_, pos, acc) => exists t, cur = [t] /\ acc = take pos t /\ (pos <= length t)%nat end /\
    length rest = (held (y_pipe st) i + length (p_source (y_pipe st)) + length (y_out st))%nat.
Proof.
  intros Hr. destruct (yreachable_inv _ _ _ _ _ Hr) as [_ _ _ _ _ _ _ (pevs & Hp & Hem)].
  destruct (pipeline_delivers _ _ _ _ _ Hp) as (s1 & ts & Hall & Hq & Hrd & Ht).
  destruct (converts_all_total conv (y_out st) s1) as (s2 & ts2 & Hall2). pose proof (converts_all_length _ _ _ _ _ Hall2) as Hl2.
  exists s2, (ts ++ ts2). split; [rewrite Hem; by eapply converts_all_app|]. split; [done|]. split; [done|].
  intros i q r Hqi Hri. destruct (Ht i q r Hqi Hri) as (cur & rest & -> & Hcur & Hrest). exists cur, (rest ++ ts2). split; [by rewrite <- !app_assoc|]. split; [done|].
  rewrite app_length. lia.
Qed.

(* ---------- progress ---------- *)

Definition positive_caps (cfg : sysconfig) : Prop :=
  (0 < z_input cfg)%nat /\ (0 < g_source (z_pipe cfg))%nat /\ Forall (fun c => 0 < c)%nat (g_targets (z_pipe cfg)).

Definition yrest {S} (st : ystate S) : Prop :=
  Forall (fun h => h.2 = []) (y_handlers st) /\ y_input st = [] /\ y_out st = [] /\ at_rest (y_pipe st).

Lemma map_order_to_list : map_order map_to_list.
Proof. by intros m. Qed.

Lemma system_progress_inv {S} cfg (conv : converter S) s0 reqs st : positive_caps cfg -> yinv cfg conv s0 reqs st ->
  yrest st \/ exists e st', yinternal e /\ valid_yevent e /\ ystep cfg conv e st = Next st'.
Proof.
  intros (Hzi & Hzs & Hzt) [_ _ _ _ _ _ _ (pevs & Hp & _)]. destruct st as [hs inp puts corr log out pipe]. cbn [y_pipe] in *.
  destruct (pipeline_progress_inv _ _ _ _ _ Hzt (reachable_inv _ _ _ _ _ Hp)) as [Hrest|(e & pipe' & He & Hst)].
  2:{ right. exists (YPipe e), (YState hs inp puts corr log out pipe'). split; [done|]. split; [done|]. cbn [ystep]. rewrite Hst. by destruct e. }
  destruct out as [|t out].
  2:{ right. exists YSend. destruct Hrest as (Hs & _). destruct pipe as [h s src f qs rs]. cbn [p_source] in Hs. subst src. eexists. split; [done|]. split; [done|].
      cbn [ystep pstep length]. rewrite decide_True by done. reflexivity. }
  destruct inp as [|s inp].
  2:{ right. exists (YRecv map_to_list 0 0). eexists. split; [done|]. split; [apply map_order_to_list|]. reflexivity. }
  assert (HH : Forall (fun h => h.2 = []) hs \/ exists e st', yinternal e /\ valid_yevent e /\ ystep cfg conv e (YState hs [] puts corr log [] pipe) = Next st').
  { apply list_progress. intros i [did todo] Hi. destruct todo as [|[s|c] todo]; [by left|right|right]; exists (YAct i); eexists; (split; [done|]); (split; [done|]); cbn [ystep]; rewrite Hi.
    - rewrite decide_True by (cbn; lia). reflexivity.
    - reflexivity. }
  destruct HH as [HH|]; [left|by right]. done.
Qed.

Lemma yrest_stopped {S} cfg (conv : converter S) (st : ystate S) : yrest st -> ystopped cfg conv st.
Proof.
  destruct st as [hs inp puts corr log out pipe]. intros (Hh & Hi & Ho & Hp). cbn [y_handlers y_input y_out y_pipe] in *. subst inp out. intros e He. destruct e as [acts|i|ord n0 n1|k| |e]; try done.
  - cbn [ystep]. destruct (hs !! i) as [[did todo]|] eqn:Ei; [|done]. rewrite Forall_lookup in Hh. specialize (Hh i _ Ei). cbn in Hh. by subst todo.
  - cbn [ystep]. pose proof (rest_stopped (z_pipe cfg) conv pipe Hp e) as Hs. destruct e; try done; by rewrite Hs.
Qed.

Definition ycost {S} (cfg : sysconfig) (st : ystate S) : nat :=
  2 * sum (map (fun h => length h.2) (y_handlers st)) + length (y_input st) +
  sum (map (fun t => source_cost (length (g_targets (z_pipe cfg))) (Slice 0 (length t)) + 1)%nat (y_out st)) + cost (z_pipe cfg) (y_pipe st).

Lemma ycost_decreases {S} cfg (conv : converter S) s0 reqs st e st' : yinv cfg conv s0 reqs st -> yinternal e -> ystep cfg conv e st = Next st' ->
  (ycost cfg st' < ycost cfg st)%nat.
Proof.
  intros [_ _ _ _ _ _ _ (pevs & Hp & _)] He. destruct st as [hs inp puts corr log out pipe]. unfold ycost. cbn [y_handlers y_input y_out y_pipe] in *.
  destruct e as [acts|i|ord n0 n1|k| |e]; try done; cbn [ystep].
  - destruct (hs !! i) as [[did todo]|] eqn:Ei; [|done]. destruct todo as [|[s|c] todo]; [done|case_decide; [|done]|]; intros [= <-]; cbn [y_handlers y_input y_out y_pipe].
    + pose proof (sum_insert (fun h : list action * list action => length h.2) hs i _ (did ++ [Put s], todo) Ei) as E. cbn [snd length] in E. rewrite app_length. cbn [length]. lia.
    + pose proof (sum_insert (fun h : list action * list action => length h.2) hs i _ (did ++ [Status c], todo) Ei) as E. cbn [snd length] in E. lia.
  - destruct out; [|done]. destruct inp; [done|]. intros [= <-]. cbn [y_handlers y_input y_out y_pipe length]. lia.
  - destruct out as [|t out]; [done|]. destruct pipe as [h s src f qs rs]. cbn [pstep]. case_decide; [|done]. intros [= <-]. cbn [y_handlers y_input y_out y_pipe].
    unfold cost. cbn [p_source p_fwd p_queues p_readers]. rewrite map_app, sum_app. cbn [map sum]. unfold source_cost. cbn [sl_len]. lia.
  - assert (Hgo : internal e -> forall pipe', pstep (z_pipe cfg) conv e pipe = Next pipe' -> (cost (z_pipe cfg) pipe' < cost (z_pipe cfg) pipe)%nat).
    { intros Hi pipe' Hs. eapply cost_decreases; [by apply reachable_inv|done|done]. }
    destruct e; try done; (destruct (pstep (z_pipe cfg) conv _ pipe) as [pipe'| |]; [|done|done]); intros [= <-]; specialize (Hgo I pipe' eq_refl); cbn [y_handlers y_input y_out y_pipe]; lia.
Qed.

Lemma yinternal_requests evs : Forall yinternal evs -> requests evs = [].
Proof. induction 1 as [|e evs He _ IH]; [done|]. rewrite requests_cons, IH. by destruct e. Qed.

Lemma yinternal_bounded {S} cfg (conv : converter S) s0 evs : forall reqs st st', yinv cfg conv s0 reqs st -> Forall yinternal evs -> Forall valid_yevent evs ->
  yrun cfg conv evs st = Next st' -> (length evs + ycost cfg st' <= ycost cfg st)%nat.
Proof.
  induction evs as [|e evs IH]; intros reqs st st' Hi Hint Hv; cbn [yrun length]; [intros [= ->]; lia|].
  inversion Hint as [|? ? He Hes]; subst. inversion Hv as [|? ? Hve Hves]; subst. pose proof (ystep_ok cfg conv s0 reqs st e Hi Hve) as Hs. pose proof (ycost_decreases cfg conv s0 reqs st e) as Hc.
  destruct (ystep cfg conv e st) as [st1| |]; try done. intros Hrun. specialize (Hc st1 Hi He eq_refl). specialize (IH _ _ _ Hs Hes Hves Hrun). lia.
Qed.

Lemma yrun_app {S} cfg (conv : converter S) evs1 evs2 st st1 : yrun cfg conv evs1 st = Next st1 -> yrun cfg conv (evs1 ++ evs2) st = yrun cfg conv evs2 st1.
Proof. revert st. induction evs1 as [|e evs1 IH]; intros st; cbn [yrun app]; [by intros [= ->]|]. destruct (ystep cfg conv e st); try done. apply IH. Qed.

Lemma yreachable_app {S} cfg (conv : converter S) s0 evs evs' st st' : yreachable cfg conv s0 evs st -> Forall valid_yevent evs' -> yrun cfg conv evs' st = Next st' ->
  yreachable cfg conv s0 (evs ++ evs') st'.
Proof. intros [Hv Hr] Hv' H2. split; [by apply Forall_app|]. by rewrite (yrun_app _ _ _ _ _ _ Hr). Qed.

Lemma requests_app evs evs' : requests (evs ++ evs') = requests evs ++ requests evs'.
Proof. unfold requests. by rewrite map_app, concat_app. Qed.

Lemma system_terminates {S} cfg (conv : converter S) s0 evs st : yreachable cfg conv s0 evs st ->
  exists bound, forall evs' st', Forall yinternal evs' -> Forall valid_yevent evs' -> yrun cfg conv evs' st = Next st' -> (length evs' <= bound)%nat.
Proof.
  intros Hr. exists (ycost cfg st). intros evs' st' Hint Hv Hrun. pose proof (yinternal_bounded cfg conv s0 evs' _ _ _ (yreachable_inv _ _ _ _ _ Hr) Hint Hv Hrun). lia.
Qed.

Lemma ystopped_rest {S} cfg (conv : converter S) s0 evs st : positive_caps cfg -> yreachable cfg conv s0 evs st -> ystopped cfg conv st -> yrest st.
Proof.
  intros Hpos Hr Hs. destruct (system_progress_inv cfg conv s0 _ st Hpos (yreachable_inv _ _ _ _ _ Hr)) as [|(e & st' & He & _ & Hst)]; [done|].
  rewrite (Hs e He) in Hst. done.
Qed.

(** Everything has arrived. *)
Lemma yrest_delivered {S} cfg (conv : converter S) s0 evs st : yreachable cfg conv s0 evs st -> yrest st ->
  y_handlers st = map (fun acts => (acts, [])) (requests evs) /\ received (y_log st) = map snd (y_puts st) /\
  exists s1 ts, converts_all conv s0 (emitted (y_log st)) s1 ts /\ map rd_log (p_readers (y_pipe st)) = replicate (length (g_targets (z_pipe cfg))) ts.
Proof.
  intros Hr (Hh & Hi & Ho & Hp). destruct (system_ingest _ _ _ _ _ Hr) as (Hreq & _ & _ & Hin & _). split; [|split].
  - rewrite <- Hreq, map_map. clear -Hh. induction Hh as [|[did todo] l Hx _ IH]; [done|]. cbn in *. subst todo. rewrite app_nil_r. by f_equal.
  - by rewrite Hin, Hi, app_nil_r.
  - destruct (yreachable_inv _ _ _ _ _ Hr) as [_ _ _ _ _ _ _ (pevs & Hpr & Hem)]. rewrite Hem, Ho, app_nil_r. by eapply rest_delivered.
Qed.

Lemma system_progress {S} cfg (conv : converter S) s0 evs st : positive_caps cfg -> yreachable cfg conv s0 evs st ->
  (exists e st', yinternal e /\ valid_yevent e /\ ystep cfg conv e st = Next st') \/
  (ystopped cfg conv st /\
   y_handlers st = map (fun acts => (acts, [])) (requests evs) /\ received (y_log st) = map snd (y_puts st) /\
   exists s1 ts, converts_all conv s0 (emitted (y_log st)) s1 ts /\ map rd_log (p_readers (y_pipe st)) = replicate (length (g_targets (z_pipe cfg))) ts).
Proof.
  intros Hpos Hr. destruct (system_progress_inv cfg conv s0 _ st Hpos (yreachable_inv _ _ _ _ _ Hr)) as [Hrest|]; [right|by left].
  split; [by apply yrest_stopped|]. by eapply yrest_delivered.
Qed.

Lemma system_can_drain {S} cfg (conv : converter S) s0 evs st : positive_caps cfg -> yreachable cfg conv s0 evs st ->
  exists evs' st', Forall yinternal evs' /\ Forall valid_yevent evs' /\ yrun cfg conv evs' st = Next st' /\ ystopped cfg conv st'.
Proof.
  intros Hpos Hr. apply yreachable_inv in Hr. revert Hr. generalize (requests evs) as reqs. intros reqs. remember (ycost cfg st) as c eqn:Ec. revert st Ec.
  induction c as [c IH] using lt_wf_ind. intros st Ec Hi. destruct (system_progress_inv cfg conv s0 _ st Hpos Hi) as [Hrest|(e & st1 & He & Hve & Hst)].
  - exists [], st. split; [constructor|]. split; [constructor|]. split; [done|]. by apply yrest_stopped.
  - pose proof (ystep_ok cfg conv s0 reqs st e Hi Hve) as Hs. rewrite Hst in Hs. destruct (IH (ycost cfg st1)) with (st := st1) as (evs' & st' & H1 & H2 & H3 & H4).
    + subst c. by eapply ycost_decreases.
    + done.
    + destruct e; try done; by rewrite app_nil_r in Hs.
    + exists (e :: evs'), st'. split; [by constructor|]. split; [by constructor|]. split; [|done]. cbn [yrun]. by rewrite Hst.
Qed.

(* ---------- the fate of a span ---------- *)

Lemma first_out t (l : list entry) : (forall o, LOut t o ∉ l) \/ exists l1 o l2, l = l1 ++ LOut t o :: l2 /\ forall o', LOut t o' ∉ l1.
Proof.
  induction l as [|e l IH]; [left; intros o H; by apply elem_of_nil in H|].
  assert (Hd : (exists o, e = LOut t o) \/ forall o, e <> LOut t o).
  { destruct e as [| |t' o| |]; try (right; done). destruct (decide (t' = t)) as [->|]; [left; by eexists|right; congruence]. }
  destruct Hd as [[o ->]|Hne]; [right; exists [], o, l; split; [done|]; intros o' H; by apply elem_of_nil in H|].
  destruct IH as [Hno|(l1 & o & l2 & -> & Hno)].
  - left. intros o [H|H]%elem_of_cons; [by apply (Hne o)|by apply (Hno o)].
  - right. exists (e :: l1), o, l2. split; [done|]. intros o' [H|H]%elem_of_cons; [by apply (Hne o')|by apply (Hno o')].
Qed.

Lemma emitted_in log l1 t out l2 : log = l1 ++ LOut t (Emitted out) :: l2 -> emitted log = emitted l1 ++ out :: emitted l2.
Proof. intros ->. rewrite emitted_app. done. Qed.

Lemma converts_all_middle {S} (conv : converter S) s l1 x l2 s1 ts : converts_all conv s (l1 ++ x :: l2) s1 ts ->
  exists s2 s3 x', converts conv s2 x s3 x' /\ x' ∈ ts.
Proof.
  revert s ts. induction l1 as [|y l1 IH]; intros s ts H; [|rewrite <- app_comm_cons in H]; inversion H; subst.
  - eexists _, _, _. split; [done|left].
  - match goal with H : converts_all conv _ (l1 ++ x :: l2) _ _ |- _ => destruct (IH _ _ H) as (sa & sb & xc & Hc & Hx) end. eexists _, _, _. split; [done|by right].
Qed.

Lemma system_fate {S} cfg (conv : converter S) s0 evs st l1 n0 n1 s l2 : positive_caps cfg -> yreachable cfg conv s0 evs st ->
  ystopped cfg conv st -> f_traces (y_corr st) = ∅ -> y_log st = l1 ++ LSpan n0 n1 s :: l2 ->
  s_trace s <> 0 -> s_id s <> 0 -> ~ blacklisted l1 (s_trace s) ->
  exists l21 o l22, l2 = l21 ++ LOut (s_trace s) o :: l22 /\ entry_ok (l1 ++ LSpan n0 n1 s :: l21) (LOut (s_trace s) o) /\
    forall out, o = Emitted out -> s_id s ∈ ids out /\
      exists c c' out', converts conv c out c' out' /\ Forall (fun r => out' ∈ rd_log r) (p_readers (y_pipe st)).
Proof.
  intros Hpos Hr Hs Hempty El Ht Hi Hb. destruct (system_record _ _ _ _ _ Hr) as (fevs & Hfv & Hrun).
  destruct (first_out (s_trace s) l2) as [Hno|(l21 & o & l22 & -> & Hno)].
  { destruct (not_lost _ _ _ _ _ _ _ _ Hfv Hrun El Ht Hi Hb Hno) as (tr & Htr & _). rewrite Hempty in Htr. by rewrite lookup_empty in Htr. }
  exists l21, o, l22. split; [done|]. split.
  { eapply (outcome_reason fevs _ _ _ l22); [done|]. rewrite Hrun. cbn [snd]. rewrite El, <- app_assoc. done. }
  intros out ->. split.
  { eapply (not_lost_emitted fevs (y_log st)); [done|by rewrite Hrun|exact El|done..]. }
  destruct (yrest_delivered _ _ _ _ _ Hr (ystopped_rest _ _ _ _ _ Hpos Hr Hs)) as (_ & _ & s1 & ts & Hall & Hrd).
  rewrite (emitted_in (y_log st) (l1 ++ LSpan n0 n1 s :: l21) (s_trace s) out l22) in Hall by (rewrite El, <- app_assoc; done).
  destruct (converts_all_middle _ _ _ _ _ _ _ Hall) as (c & c' & out' & Hc & Hin). exists c, c', out'. split; [done|].
  apply Forall_lookup. intros i r Hri. assert (E : map rd_log (p_readers (y_pipe st)) !! i = Some (rd_log r)) by (by rewrite list_lookup_fmap, Hri).
  rewrite Hrd in E. apply lookup_replicate in E as [-> _]. done.
Qed.

(** After everything was idle for 8 s. *)
Lemma ystep_log {S} cfg (conv : converter S) e st st' : ystep cfg conv e st = Next st' -> match e with YTick _ | YRecv _ _ _ => True | _ => y_corr st' = y_corr st /\ y_log st' = y_log st end.
Proof.
  destruct st as [hs inp puts corr log out pipe]. destruct e as [acts|i|ord n0 n1|k| |e]; cbn [ystep]; try done.
  - by intros [= <-].
  - destruct (hs !! i) as [[did [|[s|c] todo]]|]; try done; [case_decide; [|done]|]; by intros [= <-].
  - destruct out; [done|]. destruct (pstep _ _ _ _); try done. by intros [= <-].
  - destruct e; try done; destruct (pstep _ _ _ _); try done; by intros [= <-].
Qed.

Lemma quiet_run {S} cfg (conv : converter S) evs : forall st st', Forall yinternal evs -> y_input st = [] -> Forall (fun h => h.2 = []) (y_handlers st) ->
  yrun cfg conv evs st = Next st' -> y_corr st' = y_corr st /\ y_log st' = y_log st.
Proof.
  induction evs as [|e evs IH]; intros st st' Hint Hi Hh; cbn [yrun]; [by intros [= ->]|]. inversion Hint as [|? ? He Hes]; subst.
  destruct (ystep cfg conv e st) as [st1| |] eqn:Es; try done. intros Hrun.
  assert (Hkeep : y_corr st1 = y_corr st /\ y_log st1 = y_log st /\ y_input st1 = [] /\ Forall (fun h => h.2 = []) (y_handlers st1)).
  { destruct st as [hs inp puts corr log out pipe]. cbn [y_input y_handlers] in *. subst inp. destruct e as [acts|i|ord n0 n1|k| |e]; cbn [ystep] in Es; try done.
    - destruct (hs !! i) as [[did todo]|] eqn:Ei; [|done]. rewrite Forall_lookup in Hh. specialize (Hh i _ Ei). cbn in Hh. subst todo. done.
    - by destruct out.
    - destruct out; [done|]. destruct (pstep _ _ _ _); try done. by injection Es as <-.
    - destruct e; try done; destruct (pstep _ _ _ _); try done; by injection Es as <-. }
  destruct Hkeep as (Hc & Hl & Hi1 & Hh1). destruct (IH st1 st' Hes Hi1 Hh1 Hrun) as [-> ->]. done.
Qed.

Lemma system_settles {S} cfg (conv : converter S) s0 evs st k : positive_caps cfg -> yreachable cfg conv s0 evs st -> ystopped cfg conv st -> valid_tick k ->
  (forall t, touched (pending (y_log st) t) <= k_now1 k - seconds 8) ->
  exists evs' st', Forall yinternal evs' /\ yreachable cfg conv s0 (evs ++ YTick k :: evs') st' /\ ystopped cfg conv st' /\ f_traces (y_corr st') = ∅.
Proof.
  intros Hpos Hr Hs Hk Hq. pose proof (ystopped_rest _ _ _ _ _ Hpos Hr Hs) as (Hh & Hi & Ho & _).
  destruct (system_record _ _ _ _ _ Hr) as (fevs & Hfv & Hrun). destruct (quiet_tick_empties _ _ _ _ Hfv Hk Hrun Hq) as (fst' & flog' & Hrun' & Hempty).
  rewrite run_snoc, Hrun in Hrun'. cbn [fst snd step] in Hrun'. destruct (finish_traces k (y_corr st)) as [corr' l] eqn:Ef. injection Hrun' as -> <-.
  assert (Hst : ystep cfg conv (YTick k) st = Next (YState (y_handlers st) (y_input st) (y_puts st) fst' (y_log st ++ l) (emitted l) (y_pipe st))).
  { destruct st as [hs inp puts corr log out pipe]. cbn [y_handlers y_input y_out y_corr] in *. subst out. cbn [ystep]. by rewrite Ef. }
  remember (YState (y_handlers st) (y_input st) (y_puts st) fst' (y_log st ++ l) (emitted l) (y_pipe st)) as st1 eqn:E1.
  assert (Hr1 : yreachable cfg conv s0 (evs ++ [YTick k]) st1).
  { eapply yreachable_app; [done|by constructor|]. cbn [yrun]. by rewrite Hst. }
  destruct (system_can_drain _ _ _ _ _ Hpos Hr1) as (evs' & st' & Hint & Hv & Hrun1 & Hs'). exists evs', st'. split; [done|]. split; [|split; [done|]].
  - pose proof (yreachable_app _ _ _ _ _ _ _ Hr1 Hv Hrun1) as H. by rewrite <- app_assoc in H.
  - destruct (quiet_run cfg conv evs' st1 st' Hint) as [-> _]; [by subst st1|by subst st1|done|]. by subst st1.
Qed.
