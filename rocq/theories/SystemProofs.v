(** Proofs about the whole program (C57-C59). *)
From Verif Require Import Base SpanModel JsonModel CodecModel HandlerModel HandlerSpec TreeModel TreeSpec FinishModel FinishSpec FinishTheorems
  ForwardModel ForwardSpec ForwardProofs PipelineModel PipelineSpec PipelineProofs PipelineTheorems SystemModel SystemSpec HandlerRange.

Definition action_ok (a : action) : Prop := match a with Put s => int64_ok (s_ts s) | Status _ => True end.
Lemma handle_ok env q acts : handle env q = XDone acts -> Forall action_ok acts.
Proof. intros E. apply Forall_forall. intros [s|c] Ha; [|done]. by eapply handle_ts. Qed.

Record yinv {S} (cfg : sysconfig) (conv : converter S) (s0 : S) (reqs : list (list action)) (st : ystate S) : Prop := {
  v_handlers : map (fun h => h.1 ++ h.2) (y_handlers st) = reqs;
  v_puts : forall i h, y_handlers st !! i = Some h -> puts_of h.1 = by_handler i (y_puts st);
  v_known : Forall (fun p => (p.1 < length reqs)%nat) (y_puts st);
  v_ok : Forall (Forall action_ok) reqs;
  v_input : map snd (y_puts st) = received (y_log st) ++ y_input st;
  v_input_cap : (length (y_input st) <= z_input cfg)%nat;
  v_corr : exists fevs, Forall valid_event fevs /\ run fevs = (Some (y_corr st), y_log st);
  v_pipe : exists pevs, reachable (z_pipe cfg) conv s0 pevs (y_pipe st) /\ emitted (y_log st) = inputs pevs ++ y_out st }.

Lemma received_app l1 l2 : received (l1 ++ l2) = received l1 ++ received l2.
Proof. unfold received. by rewrite map_app, concat_app. Qed.
Lemma emitted_app l1 l2 : emitted (l1 ++ l2) = emitted l1 ++ emitted l2.
Proof. unfold emitted. by rewrite map_app, concat_app. Qed.
Lemma puts_of_app l1 l2 : puts_of (l1 ++ l2) = puts_of l1 ++ puts_of l2.
Proof. unfold puts_of. by rewrite map_app, concat_app. Qed.

Lemma run_snoc evs e : run (evs ++ [e]) = let '(st, log) := step (run evs).1 e in (st, (run evs).2 ++ log).
Proof. unfold run. rewrite foldl_app. done. Qed.

Lemma finish_one_received k du ds acc p : received (finish_one k du ds acc p).2 = received acc.2.
Proof.
  destruct acc as [st log], p as [id t]. unfold finish_one. destruct (negb _ && _ && _); [done|].
  destruct (too_large t); [cbn [snd]; by rewrite received_app, app_nil_r|]. destruct (t_started t <? ds); [cbn [snd]; by rewrite received_app, app_nil_r|].
  destruct (find_roots _ _ t) as [t' rs]. destruct rs as [|r [|]]; try (cbn [snd]; by rewrite received_app, app_nil_r).
  destruct (correct _ _ _ _ _) as [[? ?]|]; cbn [snd]; by rewrite received_app, app_nil_r.
Qed.
Lemma discard_loop_received l : forall n m log, received (discard_loop l n m log).2 = received log.
Proof. induction l as [|[id t] l IH]; intros n m log; cbn [discard_loop]; [done|]. destruct (n <? maxSpans); [done|]. rewrite IH, received_app. cbn. by rewrite app_nil_r. Qed.
Lemma evict_received l : forall b log, received (evict l b log).2 = received log.
Proof. induction l as [|id l IH]; intros b log; cbn [evict]; [done|]. destruct (_ <? _); [done|]. rewrite IH, received_app. cbn. by rewrite app_nil_r. Qed.

Lemma finish_received k st : received (finish_traces k st).2 = [].
Proof.
  unfold finish_traces. set (f := finish_one _ _ _). set (l := k_range k 1 _).
  assert (Hf : forall acc, received (foldl f acc l).2 = received acc.2).
  { intros acc. revert acc. induction l as [|p l IH]; intros acc; cbn [foldl]; [done|]. rewrite IH. apply finish_one_received. }
  specialize (Hf (st, [LTick (k_now1 k) (k_now2 k) (count_spans (k_range k 0 (f_traces st)))])). destruct (foldl f _ l) as [st1 log].
  assert (Hd : received (if maxSpans <? count_spans (k_range k 0 (f_traces st)) then discard k (f_traces st1) else (f_traces st1, [])).2 = []).
  { destruct (_ <? _); [|done]. unfold discard. destruct (_ <? _); [done|]. by rewrite discard_loop_received. }
  destruct (if maxSpans <? _ then _ else _) as [m logd]. pose proof (evict_received (k_range_black k (f_black st1)) (f_black st1) []) as He.
  destruct (evict _ _ _) as [b loge]. cbn [snd] in *. by rewrite !received_app, Hf, Hd, He.
Qed.

Lemma inputs_snoc pevs e : inputs (pevs ++ [e]) = inputs pevs ++ match e with PInput t => [t] | _ => [] end.
Proof. unfold inputs. rewrite map_app, concat_app. cbn. by rewrite app_nil_r. Qed.

Lemma reachable_snoc {S} cfg (conv : converter S) s0 pevs st e st' : reachable cfg conv s0 pevs st -> pstep cfg conv e st = Next st' -> reachable cfg conv s0 (pevs ++ [e]) st'.
Proof. intros Hr Hs. eapply reachable_app; [done|]. cbn [prun]. by rewrite Hs. Qed.

Lemma reachable_step_ok {S} cfg (conv : converter S) s0 pevs st e : reachable cfg conv s0 pevs st -> pstep cfg conv e st <> Panicked.
Proof. intros Hr Hp. pose proof (pstep_ok cfg conv s0 _ st e (reachable_inv _ _ _ _ _ Hr)) as H. by rewrite Hp in H. Qed.

Lemma by_handler_snoc_eq i s puts : by_handler i (puts ++ [(i, s)]) = by_handler i puts ++ [s].
Proof. unfold by_handler. rewrite filter_app, map_app. f_equal. rewrite filter_cons_True by done. done. Qed.
Lemma by_handler_snoc_ne i j s puts : i <> j -> by_handler j (puts ++ [(i, s)]) = by_handler j puts.
Proof. intros Hne. unfold by_handler. rewrite filter_app, map_app. rewrite filter_cons_False by done. cbn. by rewrite app_nil_r. Qed.

Lemma by_handler_none i puts : Forall (fun p => (p.1 < i)%nat) puts -> by_handler i puts = [].
Proof.
  intros H. unfold by_handler. replace (filter _ puts) with (@nil (nat * span)); [done|]. symmetry. induction H as [|[j s] l Hj _ IH]; [done|].
  rewrite filter_cons_False; [done|]. cbn in *. lia.
Qed.

Lemma map_insert_same {A B} (f : A -> B) l i x y : l !! i = Some x -> f y = f x -> map f (<[i := y]> l) = map f l.
Proof.
  intros Hl E. apply list_eq. intros j. rewrite !list_lookup_fmap. destruct (decide (i = j)) as [<-|Hne].
  - rewrite list_lookup_insert by (by eapply lookup_lt_Some). rewrite Hl. cbn. by rewrite E.
  - by rewrite list_lookup_insert_ne.
Qed.

Lemma yinv_init {S} cfg (conv : converter S) s0 : yinv cfg conv s0 [] (yinit cfg s0).
Proof.
  split; cbn; try done; [lia|..].
  - exists []. split; [constructor|done].
  - exists []. split; [done|done].
Qed.

Lemma ystep_ok {S} cfg (conv : converter S) s0 reqs st e : yinv cfg conv s0 reqs st -> valid_yevent e ->
  match ystep cfg conv e st with
  | Next st' => yinv cfg conv s0 (reqs ++ match e with YRequest acts => [acts] | _ => [] end) st'
  | Blocked => True
  | Panicked => False end.
Proof.
  intros [Hh Hp Hk Hok Hin Hcap (fevs & Hfv & Hrun) (pevs & Hreach & Hem)] Hv. destruct st as [hs inp puts corr log out pipe].
  cbn [y_handlers y_input y_puts y_corr y_log y_out y_pipe] in *.
  assert (Hlen : length hs = length reqs) by (rewrite <- Hh; by rewrite map_length).
  destruct e as [acts|i|ord n0 n1|k| |e]; cbn [ystep]; rewrite ?app_nil_r.
  - split; cbn [y_handlers y_input y_puts y_corr y_log y_out y_pipe]; try done.
    + rewrite map_app, Hh. done.
    + intros i h Hi. apply lookup_app_Some in Hi as [Hi|[Hge Hi]]; [by apply Hp|]. apply list_lookup_singleton_Some in Hi as [Hi <-]. cbn [fst].
      assert (i = length hs) as -> by lia. rewrite Hlen. symmetry. by apply by_handler_none.
    + eapply Forall_impl; [done|]. intros p Hlt. cbn in *. rewrite app_length. lia.
    + apply Forall_app. split; [done|]. constructor; [|done]. destruct Hv as (env & q & Hv). by eapply handle_ok.
    + by exists fevs.
    + by exists pevs.
  - destruct (hs !! i) as [[did todo]|] eqn:Ei; [|done]. destruct todo as [|[s|c] todo]; [done|case_decide as Hlt; [|done]|].
    + split; cbn [y_handlers y_input y_puts y_corr y_log y_out y_pipe]; try done.
      * rewrite <- Hh. eapply map_insert_same; [done|]. cbn. by rewrite <- app_assoc.
      * intros j h Hj. apply insert_lookup_cases in Hj as [[-> ->]|[Hne Hj]].
        -- cbn [fst]. rewrite puts_of_app, by_handler_snoc_eq. f_equal. apply (Hp j _ Ei).
        -- rewrite by_handler_snoc_ne by done. by apply Hp.
      * apply Forall_app. split; [done|]. constructor; [|done]. cbn. apply lookup_lt_Some in Ei. lia.
      * rewrite map_app, Hin. by rewrite <- app_assoc.
      * rewrite app_length. cbn. lia.
      * by exists fevs.
      * by exists pevs.
    + split; cbn [y_handlers y_input y_puts y_corr y_log y_out y_pipe]; try done.
      * rewrite <- Hh. eapply map_insert_same; [done|]. cbn. by rewrite <- app_assoc.
      * intros j h Hj. apply insert_lookup_cases in Hj as [[-> ->]|[Hne Hj]]; [|by apply Hp]. cbn [fst]. rewrite puts_of_app. cbn. rewrite app_nil_r. apply (Hp j _ Ei).
      * by exists fevs.
      * by exists pevs.
  - destruct out as [|t out]; [|done]. destruct inp as [|s inp]; [done|]. split; cbn [y_handlers y_input y_puts y_corr y_log y_out y_pipe]; try done.
    + rewrite Hin, received_app. cbn. by rewrite <- app_assoc.
    + cbn in Hcap. lia.
    + exists (fevs ++ [ESpan ord n0 n1 s]). split.
      * apply Forall_app. split; [done|]. constructor; [|done]. split; [done|].
        (* the span was asked for by some handler *)
        assert (Hs : s ∈ map snd puts) by (rewrite Hin; apply elem_of_app; right; left).
        apply elem_of_list_fmap in Hs as ([i s'] & -> & Hs). cbn [snd].
        rewrite Forall_forall in Hk. specialize (Hk _ Hs). cbn in Hk. destruct (lookup_lt_is_Some_2 hs i) as [h Eh]; [lia|].
        assert (Hi : s' ∈ by_handler i puts). { unfold by_handler. apply elem_of_list_fmap. exists (i, s'). split; [done|]. apply elem_of_list_filter. done. }
        rewrite <- (Hp i h Eh) in Hi. unfold puts_of in Hi. apply elem_of_list_In, in_concat in Hi as (l & Hl & Hin'). apply in_map_iff in Hl as (a & <- & Ha).
        destruct a as [s2|]; [|done]. destruct Hin' as [->|[]].
        rewrite Forall_lookup in Hok. assert (Hr : reqs !! i = Some (h.1 ++ h.2)) by (rewrite <- Hh; by rewrite list_lookup_fmap, Eh).
        specialize (Hok i _ Hr). rewrite Forall_forall in Hok. apply (Hok (Put s')). apply elem_of_app. left. by apply elem_of_list_In.
      * rewrite run_snoc, Hrun. done.
    + exists pevs. split; [done|]. rewrite emitted_app, Hem. cbn. by rewrite app_nil_r.
  - destruct out as [|t out]; [|done]. pose proof (finish_received k corr) as Hr. destruct (finish_traces k corr) as [corr' l] eqn:Ef. cbn [snd] in Hr.
    split; cbn [y_handlers y_input y_puts y_corr y_log y_out y_pipe]; try done.
    + by rewrite received_app, Hr, app_nil_r.
    + exists (fevs ++ [ETick k]). split; [apply Forall_app; split; [done|]; by constructor|]. rewrite run_snoc, Hrun. cbn [fst step snd]. by rewrite Ef.
    + exists pevs. split; [done|]. by rewrite emitted_app, Hem, app_nil_r.
  - destruct out as [|t out]; [done|]. destruct (pstep (z_pipe cfg) conv (PInput t) pipe) as [pipe'| |] eqn:Ep; [|done|].
    + split; cbn [y_handlers y_input y_puts y_corr y_log y_out y_pipe]; try done; [by exists fevs|].
      exists (pevs ++ [PInput t]). split; [by eapply reachable_snoc|]. rewrite inputs_snoc, Hem. by rewrite <- app_assoc.
    + by eapply reachable_step_ok.
  - assert (Hgo : internal e -> match (match pstep (z_pipe cfg) conv e pipe with Next pipe' => Next (YState hs inp puts corr log out pipe') | Blocked => Blocked | Panicked => Panicked end) with
      | Next st' => yinv cfg conv s0 reqs st' | Blocked => True | Panicked => False end).
    { intros Hi. destruct (pstep (z_pipe cfg) conv e pipe) as [pipe'| |] eqn:Ep; [|done|].
      - split; cbn [y_handlers y_input y_puts y_corr y_log y_out y_pipe]; try done; [by exists fevs|].
        exists (pevs ++ [e]). split; [by eapply reachable_snoc|]. rewrite inputs_snoc, Hem. destruct e; try done; by rewrite app_nil_r.
      - by eapply reachable_step_ok. }
    destruct e; first [done|exact (Hgo I)].
Qed.

Lemma requests_cons e evs : requests (e :: evs) = match e with YRequest acts => [acts] | _ => [] end ++ requests evs.
Proof. done. Qed.

Lemma yrun_ok {S} cfg (conv : converter S) s0 evs : forall reqs st, yinv cfg conv s0 reqs st -> Forall valid_yevent evs ->
  match yrun cfg conv evs st with Next st' => yinv cfg conv s0 (reqs ++ requests evs) st' | Blocked => True | Panicked => False end.
Proof.
  induction evs as [|e evs IH]; intros reqs st Hi Hv; cbn [yrun].
  - unfold requests. cbn. by rewrite app_nil_r.
  - inversion Hv as [|? ? He Hes]; subst. pose proof (ystep_ok cfg conv s0 reqs st e Hi He) as Hs. destruct (ystep cfg conv e st) as [st'| |]; try done.
    specialize (IH _ _ Hs Hes). destruct (yrun cfg conv evs st'); try done. rewrite requests_cons, app_assoc. done.
Qed.

Lemma yreachable_inv {S} cfg (conv : converter S) s0 evs st : yreachable cfg conv s0 evs st -> yinv cfg conv s0 (requests evs) st.
Proof. intros [Hv H]. pose proof (yrun_ok cfg conv s0 evs [] _ (yinv_init cfg conv s0) Hv) as Hr. by rewrite H in Hr. Qed.
