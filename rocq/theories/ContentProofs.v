(** What emitted spans say was said by received ones (C94). *)
From Verif Require Import Base SpanModel JsonModel CodecModel HandlerModel HandlerSpec TreeModel TreeSpec TreeProofs FinishModel FinishSpec FinishProofs FinishRun FinishTheorems
  ForwardModel ForwardSpec PipelineModel PipelineSpec SystemModel SystemSpec SystemProofs SystemTheorems SystemOrigin
  BinaryModel BinarySpec ConsumeModel ReplaySpec ClusterModel ClusterSpec ClusterRuns JoinSpec JoinProofs ContentSpec.

Lemma told_self x : told [x] x.
Proof.
  assert (Hx : x ∈ [x]) by left. split.
  1,3,5: by exists x.
  1-3: intros E; by apply Forall_singleton.
  - intros k v E. by exists x.
  - intros g k Hg. by apply elem_of_list_singleton in Hg as ->.
  - intros f _. by exists x.
Qed.

Lemma told_retimed l x st du : told l x -> told l (retimed x st du).
Proof. by intros []. Qed.

Lemma told_in l l' (P : span -> Prop) : (exists g, g ∈ l /\ P g) -> exists g, g ∈ l ++ l' /\ P g.
Proof. intros (g & Hg & HP). exists g. split; [apply elem_of_app; by left|done]. Qed.

Lemma told_merged l x new : told l x -> told (l ++ [new]) (updated_span x new).
Proof.
  intros H. assert (Hn : new ∈ l ++ [new]) by (apply elem_of_app; right; left).
  assert (Hold : forall P : span -> Prop, (exists g, g ∈ l /\ P g) -> exists g, g ∈ l ++ [new] /\ P g) by apply told_in.
  assert (Hnew : forall P : span -> Prop, P new -> exists g, g ∈ l ++ [new] /\ P g) by eauto.
  destruct H as [Hp Hpk Hm Hmk Hs Hsk Ht Hk Htm].
  destruct x as [i p tr nm sv ts du tg [a b c d]] eqn:Ex, new as [i' p' tr' nm' sv' ts' du' tg' [a' b' c' d']] eqn:En.
  cbn [s_id s_parent s_trace s_name s_service s_ts s_dur s_tags s_timings] in *. rewrite <- En in *.
  assert (Et : forall f, f ∈ [tCS; tCR; tSS; tSR] -> f (Timings a' b' c' d') = f (s_timings new)) by (by subst).
  pose proof (Htm tCS ltac:(repeat first [left|right])) as HCS. pose proof (Htm tCR ltac:(right; left)) as HCR.
  pose proof (Htm tSS ltac:(right; right; left)) as HSS. pose proof (Htm tSR ltac:(right; right; right; left)) as HSR. cbn [tCS tCR tSS tSR] in HCS, HCR, HSS, HSR.
  assert (E1 : s_parent new = p') by (by subst). assert (E2 : s_name new = nm') by (by subst). assert (E3 : s_service new = sv') by (by subst). assert (E4 : s_tags new = tg') by (by subst).
  assert (Hpar : s_parent (updated_span (Span i p tr nm sv ts du tg (Timings a b c d)) new) = if p =? 0 then p' else p).
  { unfold updated_span, merged. cbn [s_parent]. destruct (p =? 0), (decide (from_server _)); cbn; by rewrite ?E1. }
  split.
  - rewrite Hpar. destruct (p =? 0); [by apply Hnew|by apply Hold].
  - rewrite Hpar. destruct (p =? 0) eqn:E0; [|lia]. intros ->. apply Forall_app. split; [apply Hpk; lia|]. by constructor.
  - unfold updated_span, merged. cbn [s_parent] in *; destruct (p =? 0), (decide (from_server _)); cbn [s_name set_parent]; rewrite E2; unfold first_nonempty; destruct (decide _); first [by apply Hnew|by apply Hold].
  - unfold updated_span, merged. rewrite Forall_app, Forall_singleton.
    cbn [s_parent] in *; destruct (p =? 0), (decide (from_server _)); cbn [s_name set_parent]; rewrite E2; unfold first_nonempty; destruct (decide _) as [->|]; intros E; try done; (split; [by apply Hmk|done]).
  - unfold updated_span, merged. cbn [s_parent] in *; destruct (p =? 0), (decide (from_server _)); cbn [s_service set_parent]; rewrite E3; unfold first_nonempty; destruct (decide _); first [by apply Hnew|by apply Hold].
  - unfold updated_span, merged. rewrite Forall_app, Forall_singleton.
    cbn [s_parent] in *; destruct (p =? 0), (decide (from_server _)); cbn [s_service set_parent]; rewrite E3; unfold first_nonempty; destruct (decide _) as [->|]; intros E; try done; (split; [by apply Hsk|done]).
  - intros k v E. assert (Hu : tg !! k = Some v \/ tg' !! k = Some v).
    { unfold updated_span, merged in E. cbn [s_parent] in *; destruct (p =? 0), (decide (from_server _)); cbn [s_tags set_parent] in E; rewrite E4 in E; apply lookup_union_Some_raw in E; tauto. }
    destruct Hu as [Hu|Hu]; [apply Hold; by apply Ht|apply Hnew; by rewrite E4].
  - intros g k Hg Hgk. assert (Hu : tg !! k <> None \/ tg' !! k <> None).
    { apply elem_of_app in Hg as [Hg|Hg]; [left; by apply (Hk g)|]. apply elem_of_list_singleton in Hg as ->. right. by rewrite <- E4. }
    unfold updated_span, merged. cbn [s_parent] in *; destruct (p =? 0), (decide (from_server _)); cbn [s_tags set_parent]; rewrite E4; intros Hl; apply lookup_union_None in Hl as [H1 H2]; by destruct Hu.
  - intros f Hf. unfold updated_span, merged.
    assert (Hcase : exists a1 b1 c1 d1, s_timings (updated_span (Span i p tr nm sv ts du tg (Timings a b c d)) new) = Timings a1 b1 c1 d1 /\ (a1 = a \/ a1 = a') /\ (b1 = b \/ b1 = b') /\ (c1 = c \/ c1 = c') /\ (d1 = d \/ d1 = d')).
    { unfold updated_span, merged. rewrite En. cbn [s_timings tCS tCR tSS tSR].
      cbn [s_parent] in *; destruct (p =? 0), (decide (from_server _)); cbn [s_timings set_parent tCS tCR tSS tSR]; eexists _, _, _, _; (split; [reflexivity|]);
        repeat split; try (by left); destruct (0 <? _); first [by left|by right]. }
    destruct Hcase as (a1 & b1 & c1 & d1 & Ec & Ha & Hb & Hc & Hd). unfold updated_span, merged in Ec. rewrite Ec.
    repeat (apply elem_of_cons in Hf as [->|Hf]); [..|by apply elem_of_nil in Hf]; cbn [tCS tCR tSS tSR];
      [destruct Ha as [->| ->]|destruct Hb as [->| ->]|destruct Hc as [->| ->]|destruct Hd as [->| ->]];
      first [by apply Hold|apply Hnew; by rewrite En].
Qed.

Lemma reports_snoc i a n0 n1 s : reports i (a ++ [(n0, n1, s)]) = reports i a ++ (if decide (s_id s = i) then [s] else []).
Proof. unfold reports. rewrite map_app, filter_app. cbn [map snd]. destruct (decide _); [by rewrite filter_cons_True|by rewrite filter_cons_False]. Qed.

Lemma reports_none i a : i ∉ map (fun x => s_id x.2) a -> reports i a = [].
Proof.
  intros H. unfold reports. induction a as [|x a IH]; [done|]. cbn [map] in *. apply not_elem_of_cons in H as [H1 H2]. rewrite filter_cons_False by done. by apply IH.
Qed.

Lemma merged_told t a x : x ∈ merged_spans t a -> told (reports (s_id x) a) x.
Proof.
  revert x. induction a as [|[[n0 n1] s] a IH] using rev_ind; intros x Hx; [by apply elem_of_nil in Hx|].
  pose proof (merged_NoDup t (a ++ [(n0, n1, s)])) as Hnd. 
  assert (Em : merged_spans t (a ++ [(n0, n1, s)]) = t_spans (add_span map_to_list n1 s (add_all map_to_list (adds a) (new_tree 0 t)))).
  { unfold merged_spans. rewrite map_app. cbn [map fst snd]. by rewrite add_all_snoc. }
  assert (Hx' : x ∈ t_spans (add_span map_to_list n1 s (add_all map_to_list (adds a) (new_tree 0 t)))) by (rewrite <- Em; exact Hx).
  assert (Hnd' : NoDup (ids (t_spans (add_span map_to_list n1 s (add_all map_to_list (adds a) (new_tree 0 t)))))) by (rewrite <- Em; exact Hnd).
  clear Hx Hnd. revert Hx' Hnd'.
  destruct (tree_contents map_to_list 0 t (adds a) map_order_list) as (T1 & _). rewrite reports_snoc.
  destruct (add_span_cases map_to_list n1 s (add_all map_to_list (adds a) (new_tree 0 t)) map_order_list T1) as [(l1 & l2 & E1 & Hnot & E2 & _)|(l1 & y & l2 & E1 & Hid & E2 & _)];
    rewrite E2; cbn [t_spans]; intros Hx Hnd.
  - assert (Hm : forall z, z ∈ l1 ++ l2 -> told (reports (s_id z) a) z /\ s_id z <> s_id s).
    { intros z Hz. rewrite <- E1 in Hz. split; [by apply IH|]. intros Ez. apply Hnot. rewrite <- Ez. unfold ids. apply elem_of_list_fmap. by exists z. }
    apply elem_of_app in Hx as [Hx|Hx]; [|apply elem_of_cons in Hx as [->|Hx]].
    + destruct (Hm x) as [H1 H2]; [apply elem_of_app; by left|]. rewrite decide_False by done. by rewrite app_nil_r.
    + rewrite decide_True by done. rewrite reports_none; [apply told_self|]. intros Hs. apply Hnot. by apply (merged_ids t a).
    + destruct (Hm x) as [H1 H2]; [apply elem_of_app; by right|]. rewrite decide_False by done. by rewrite app_nil_r.
  - assert (Hm : forall z, z ∈ l1 ++ y :: l2 -> told (reports (s_id z) a) z) by (intros z Hz; rewrite <- E1 in Hz; by apply IH).
    assert (Hne : forall z, z ∈ l1 \/ z ∈ l2 -> s_id z <> s_id s).
    { unfold ids in Hnd. rewrite map_app in Hnd. cbn [map] in Hnd. rewrite updated_id in Hnd. apply NoDup_app in Hnd as (_ & H1 & H2). apply NoDup_cons in H2 as [H2 _].
      intros z [Hz|Hz] Ez; [apply (H1 (s_id z)); [apply elem_of_list_fmap; by exists z|apply elem_of_cons; left; congruence]|apply H2]. rewrite Hid, <- Ez. apply elem_of_list_fmap. by exists z. }
    apply elem_of_app in Hx as [Hx|Hx]; [|apply elem_of_cons in Hx as [->|Hx]].
    + rewrite decide_False by (apply not_eq_sym; apply Hne; by left). rewrite app_nil_r. apply Hm, elem_of_app. by left.
    + rewrite updated_id, decide_True by done. apply told_merged, Hm, elem_of_app. right. left.
    + rewrite decide_False by (apply not_eq_sym; apply Hne; by right). rewrite app_nil_r. apply Hm, elem_of_app. right. by right.
Qed.

Lemma Forall2_in {A B} (P : A -> B -> Prop) l l' y : Forall2 P l l' -> y ∈ l' -> exists x, x ∈ l /\ P x y.
Proof. intros H Hy. apply elem_of_list_lookup in Hy as [i Hi]. destruct (Forall2_lookup_r _ _ _ _ _ H Hi) as (x & Hx & HP). exists x. split; [by eapply elem_of_list_lookup_2|done]. Qed.

Lemma emission_told t a out x : emission t (merged_spans t a) out -> x ∈ out ->
  told (reports (s_id x) a) x \/
  (exists f st du, injected t (merged_spans t a) f /\ x = retimed f st du /\ reports (s_id x) a = []).
Proof.
  intros (all & root & Hall & _ & _ & Hre & _) Hx. destruct (Forall2_in _ _ _ _ Hre Hx) as (m & Hm & st & du & ->). change (s_id (retimed m st du)) with (s_id m).
  assert (Hold : m ∈ merged_spans t a -> told (reports (s_id m) a) (retimed m st du)) by (intros H; apply told_retimed; by eapply merged_told).
  destruct Hall as [->|(f & Hf & Hp)]; [left; by apply Hold|]. rewrite Hp in Hm. apply elem_of_cons in Hm as [->|Hm]; [|left; by apply Hold].
  right. exists f, st, du. split; [done|]. split; [done|]. apply reports_none. destruct Hf as (_ & _ & _ & Hn & _). intros Hi. apply Hn. by apply merged_ids.
Qed.

Lemma emitted_told evs l1 t out l2 x : Forall valid_event evs -> (run evs).2 = l1 ++ LOut t (Emitted out) :: l2 -> x ∈ out ->
  told (reports (s_id x) (pending l1 t)) x \/
  (exists f st du, injected t (merged_spans t (pending l1 t)) f /\ x = retimed f st du /\ reports (s_id x) (pending l1 t) = []).
Proof. intros Hv E Hx. destruct (emitted_is _ _ _ _ _ Hv E) as [_ Hem]. by apply (emission_told _ _ out). Qed.

Lemma reports_in i a g : g ∈ reports i a -> s_id g = i /\ g ∈ map snd a.
Proof. unfold reports. by rewrite elem_of_list_filter. Qed.

Lemma system_told {S} cfg (conv : converter S) s0 evs st i r y : yreachable cfg conv s0 evs st -> p_readers (y_pipe st) !! i = Some r -> y ∈ concat (rd_log r) ->
  exists x c c', conv c x = (c', (y, false)) /\
    ((exists gs, told gs x /\ forall g, g ∈ gs -> s_id g = s_id x /\ s_trace g = s_trace x /\ exists j, (j, g) ∈ y_puts st) \/
     (s_name x = str "fake-root" /\ s_service x = str "fake-root" /\ s_tags x = ∅ /\ s_timings x = Timings 0 0 0 0 /\ s_parent x = s_trace x)).
Proof.
  intros Hr Hi Hy. destruct (system_origin _ _ _ _ _ _ _ _ Hr Hi Hy) as (l1 & t & out & l2 & x & El & Hx & Ht & (c & c' & Hc) & _).
  exists x, c, c'. split; [done|]. destruct (system_record _ _ _ _ _ Hr) as (fevs & Hfv & Hrun).
  assert (El' : (run fevs).2 = l1 ++ LOut t (Emitted out) :: l2) by (by rewrite Hrun).
  destruct (emitted_told _ _ _ _ _ _ Hfv El' Hx) as [H|(f & st' & du & ((first & last & cs & -> & _) & _) & -> & _)]; [left|by right].
  exists (reports (s_id x) (pending l1 t)). split; [done|]. intros g Hg. apply reports_in in Hg as [Hid Hg]. split; [done|].
  apply elem_of_list_fmap in Hg as (a & -> & Ha). destruct (pending_received _ _ _ Ha) as [Hin Htra]. split; [congruence|].
  destruct (system_ingest _ _ _ _ _ Hr) as (_ & _ & _ & Hputs & _).
  assert (Hrec : a.2 ∈ map snd (y_puts st)).
  { rewrite Hputs. apply elem_of_app. left. unfold SystemSpec.received. apply elem_of_concat. exists [a.2]. split; [|left]. apply elem_of_list_fmap. exists (LSpan a.1.1 a.1.2 a.2). split; [done|]. rewrite El. apply elem_of_app. by left. }
  apply elem_of_list_fmap in Hrec as ([j x0] & Ex0 & Hj). cbn in Ex0. subst x0. by exists j.
Qed.

Lemma received_put cfg n parts evs st rec i s : reached cfg n parts evs st rec -> s ∈ received rec i -> exists j, RPut j s ∈ rec.
Proof.
  intros H Hs. apply received_elem, elem_of_list_split in Hs as (a & b & Eab). destruct (recv_origin _ _ _ _ _ _ _ _ _ _ H Eab) as [k Hk].
  apply elem_of_list_split in Hk as (a1 & b1 & Ea). rewrite Ea, <- app_assoc in Eab. cbn [app] in Eab.
  destruct (call_origin _ _ _ _ _ _ _ _ _ _ _ _ H Eab) as ([j Hj] & _). exists j. rewrite Eab. apply elem_of_app. by left.
Qed.

Lemma cluster_told cfg n parts evs st rec i fevs l1 t out l2 x : reached cfg n parts evs st rec ->
  Forall valid_event fevs -> fed (run fevs).2 = received rec i -> (run fevs).2 = l1 ++ LOut t (Emitted out) :: l2 -> x ∈ out ->
  (exists gs, told gs x /\ forall g, g ∈ gs -> s_id g = s_id x /\ s_trace g = s_trace x /\ exists j, RPut j g ∈ rec) \/
  (s_name x = str "fake-root" /\ s_service x = str "fake-root" /\ s_tags x = ∅ /\ s_timings x = Timings 0 0 0 0 /\ s_parent x = s_trace x).
Proof.
  intros Hr Hv Hfed El Hx. destruct (emitted_told _ _ _ _ _ _ Hv El Hx) as [H|(f & st' & du & ((first & last & cs & -> & _) & _) & -> & _)]; [left|by right].
  exists (reports (s_id x) (pending l1 t)). split; [done|]. intros g Hg. apply reports_in in Hg as [Hid Hg]. split; [done|].
  destruct (emitted_trace _ _ _ _ _ Hv El) as (Hall & _). rewrite Forall_forall in Hall. specialize (Hall x Hx).
  destruct (pending_in_fed _ _ _ Hg) as [Hin Htra]. split; [congruence|]. apply (received_put _ _ _ _ _ _ i g Hr). rewrite <- Hfed, El, fed_app. apply elem_of_app. by left.
Qed.
