(** Proofs for C116. *)
From Coq Require Import Sorted.
From Verif Require Import Base IdModel SpanModel TreeModel TreeSpec TreeProofs CorrectProofs RootProofs FinishModel FinishSpec FinishProofs FinishRun FinishTheorems
  FinishWitness ReplaySpec ReplayProofs ConnectSpec ConnectProofs OrderSpec OrderProofs OrderRun ForwardModel DatadogModel ClockSpec.

Section Clocks.
  Context (outer inner : Z -> Z).
  Local Notation R := (reclocked outer inner).

  Lemma R_ids x y : R x y -> s_id y = s_id x /\ s_parent y = s_parent x.
  Proof. intros (-> & _). done. Qed.
  Lemma R_all_ids l l' : Forall2 R l l' -> map s_id l' = map s_id l.
  Proof. induction 1 as [|x y l l' H _ IH]; [done|]. cbn [map]. destruct (R_ids _ _ H) as [-> _]. by rewrite IH. Qed.

  Lemma dated_valid d a b : dated d a b -> ts_valid b = ts_valid a.
  Proof. unfold ts_valid. intros [[-> ->]|(Ha & Hb & _)]; [done|]. destruct (Z.ltb_spec 0 a), (Z.ltb_spec 0 b); lia. Qed.

  (* ---------- merging ---------- *)

  Lemma R_parent p x y : R x y -> R (set_parent p x) (set_parent p y).
  Proof. destruct x, y. intros (E & H). injection E as -> -> -> -> -> -> ->. by split. Qed.
  Lemma R_service v x y : R x y -> R (set_service v x) (set_service v y).
  Proof. destruct x, y. intros (E & H). injection E as -> -> -> -> -> -> ->. by split. Qed.
  Lemma R_name v x y : R x y -> R (set_name v x) (set_name v y).
  Proof. destruct x, y. intros (E & H). injection E as -> -> -> -> -> -> ->. by split. Qed.
  Lemma R_tags m x y : R x y -> R (set_tags m x) (set_tags m y).
  Proof. destruct x, y. intros (E & H). injection E as -> -> -> -> -> -> ->. by split. Qed.
  Lemma R_same x y : R x y -> s_service y = s_service x /\ s_name y = s_name x /\ s_tags y = s_tags x /\ s_parent y = s_parent x.
  Proof. intros (-> & _). done. Qed.

  Lemma R_cs a b x y : R x y -> dated (outer (s_id x)) a b -> R (set_timings (set_cs a (s_timings x)) x) (set_timings (set_cs b (s_timings y)) y).
  Proof. destruct x, y. intros (E & H) Hd. injection E as -> -> -> -> -> -> ->. cbn in *. split; [done|]. cbn. tauto. Qed.
  Lemma R_cr a b x y : R x y -> dated (outer (s_id x)) a b -> R (set_timings (set_cr a (s_timings x)) x) (set_timings (set_cr b (s_timings y)) y).
  Proof. destruct x, y. intros (E & H) Hd. injection E as -> -> -> -> -> -> ->. cbn in *. split; [done|]. cbn. tauto. Qed.
  Lemma R_ss a b x y : R x y -> dated (inner (s_id x)) a b -> R (set_timings (set_ss a (s_timings x)) x) (set_timings (set_ss b (s_timings y)) y).
  Proof. destruct x, y. intros (E & H) Hd. injection E as -> -> -> -> -> -> ->. cbn in *. split; [done|]. cbn. tauto. Qed.
  Lemma R_sr a b x y : R x y -> dated (inner (s_id x)) a b -> R (set_timings (set_sr a (s_timings x)) x) (set_timings (set_sr b (s_timings y)) y).
  Proof. destruct x, y. intros (E & H) Hd. injection E as -> -> -> -> -> -> ->. cbn in *. split; [done|]. cbn. tauto. Qed.

  Lemma R_merge ord x y n n' : map_order ord -> R x y -> R n n' -> s_id n = s_id x -> R (merge_spans ord x n) (merge_spans ord y n').
  Proof.
    intros Ho Hx Hn Hi. assert (Ha : forall m s, add_tags (ord m) s = set_tags (m ∪ s_tags s) s) by (intros; apply add_tags_order, Ho).
    destruct (R_same _ _ Hn) as (E1 & E2 & E3 & _). pose proof Hn as (_ & _ & Hcs & Hcr & Hss & Hsr). rewrite Hi in Hcs, Hcr, Hss, Hsr.
    unfold merge_spans. rewrite (dated_valid _ _ _ Hcs), (dated_valid _ _ _ Hcr), (dated_valid _ _ _ Hss), (dated_valid _ _ _ Hsr), E1, E2, E3.
    destruct (ts_valid (tSR (s_timings n)) || ts_valid (tSS (s_timings n))).
    - rewrite !Ha.
      assert (H1 : exists a b, a = (if decide (s_service n = []) then x else set_service (s_service n) x) /\
                               b = (if decide (s_service n = []) then y else set_service (s_service n) y) /\ R a b /\ s_id a = s_id x).
      { eexists _, _. split; [reflexivity|]. split; [reflexivity|]. destruct (decide (s_service n = [])); [done|]. split; [by apply R_service|done]. }
      destruct H1 as (a & b & <- & <- & Hab & Ia).
      assert (H1 : exists c d, c = (if decide (s_name n = []) then a else set_name (s_name n) a) /\
                               d = (if decide (s_name n = []) then b else set_name (s_name n) b) /\ R c d /\ s_id c = s_id x).
      { eexists _, _. split; [reflexivity|]. split; [reflexivity|]. destruct (decide (s_name n = [])); [done|]. split; [by apply R_name|done]. }
      destruct H1 as (c & d & <- & <- & Hcd & Ic).
      destruct (R_same _ _ Hcd) as (_ & _ & -> & _). pose proof (R_tags (s_tags n ∪ s_tags c) _ _ Hcd) as Ht.
      assert (It : s_id (set_tags (s_tags n ∪ s_tags c) c) = s_id x) by done.
      revert Ht It. generalize (set_tags (s_tags n ∪ s_tags c) c) (set_tags (s_tags n ∪ s_tags c) d). intros e f Hef Ie.
      destruct (ts_valid (tSR (s_timings n))), (ts_valid (tSS (s_timings n))); [apply R_ss; [apply R_sr; [done|]|]|apply R_sr; [done|]|apply R_ss; [done|]|done];
        cbn; rewrite ?Ie; done.
    - destruct (R_same _ _ Hx) as (F1 & F2 & F3 & _). rewrite !Ha.
      assert (H1 : exists a b, a = (if decide (s_service x = []) then set_service (s_service n) x else x) /\
                               b = (if decide (s_service y = []) then set_service (s_service n) y else y) /\ R a b /\ s_id a = s_id x).
      { eexists _, _. split; [reflexivity|]. split; [reflexivity|]. rewrite F1. destruct (decide (s_service x = [])); [|done]. split; [by apply R_service|done]. }
      destruct H1 as (a & b & <- & <- & Hab & Ia).
      assert (H1 : exists c d, c = (if decide (s_name a = []) then set_name (s_name n) a else a) /\
                               d = (if decide (s_name b = []) then set_name (s_name n) b else b) /\ R c d /\ s_id c = s_id x).
      { eexists _, _. split; [reflexivity|]. split; [reflexivity|]. destruct (R_same _ _ Hab) as (_ & -> & _). destruct (decide (s_name a = [])); [|done]. split; [by apply R_name|done]. }
      destruct H1 as (c & d & <- & <- & Hcd & Ic).
      destruct (R_same _ _ Hcd) as (_ & _ & -> & _).
      assert (Ht : R (set_tags (s_tags c ∪ (s_tags n ∪ ∅)) (set_tags (s_tags n ∪ ∅) (set_tags ∅ c))) (set_tags (s_tags c ∪ (s_tags n ∪ ∅)) (set_tags (s_tags n ∪ ∅) (set_tags ∅ d)))) by (by repeat apply R_tags).
      assert (It : s_id (set_tags (s_tags c ∪ (s_tags n ∪ ∅)) (set_tags (s_tags n ∪ ∅) (set_tags ∅ c))) = s_id x) by done.
      revert Ht It. cbn [set_tags s_tags]. generalize (set_tags (s_tags c ∪ (s_tags n ∪ ∅)) (set_tags (s_tags n ∪ ∅) (set_tags ∅ c))) (set_tags (s_tags c ∪ (s_tags n ∪ ∅)) (set_tags (s_tags n ∪ ∅) (set_tags ∅ d))).
      intros e f Hef Ie.
      destruct (ts_valid (tCS (s_timings n))), (ts_valid (tCR (s_timings n))); [apply R_cr; [apply R_cs; [done|]|]|apply R_cs; [done|]|apply R_cr; [done|]|done];
        cbn; rewrite ?Ie; done.
  Qed.

  Lemma R_add ord x y n m T T' : map_order ord -> Forall2 R (t_spans T) (t_spans T') -> R x y ->
    Forall2 R (t_spans (add_span ord n x T)) (t_spans (add_span ord m y T')).
  Proof.
    intros Ho HF Hxy. pose proof (R_all_ids _ _ HF) as Ei. destruct (R_ids _ _ Hxy) as [Exy _].
    assert (Hp : position (s_id y) (t_spans T') = position (s_id x) (t_spans T)).
    { unfold position, id_at. by rewrite Exy, Ei, <- (Forall2_length _ _ _ HF). }
    assert (Hg : get_span_ref (s_id y) (t_spans T') = get_span_ref (s_id x) (t_spans T)).
    { unfold get_span_ref, id_at. by rewrite Hp, Exy, Ei, <- (Forall2_length _ _ _ HF). }
    unfold add_span. rewrite Hg. destruct (get_span_ref (s_id x) (t_spans T)) as [i|] eqn:Er; cbn [t_spans].
    - assert (Hid : forall s, t_spans T !! i = Some s -> s_id x = s_id s).
      { intros s Hs. unfold get_span_ref in Er. destruct ((position (s_id x) (t_spans T) <? length (t_spans T))%nat && (id_at (t_spans T) (position (s_id x) (t_spans T)) =? s_id x)) eqn:E; [|done].
        apply andb_true_iff in E as [_ E]. injection Er as <-. apply Z.eqb_eq in E. rewrite <- E. unfold id_at.
        apply nth_lookup_Some. change (map s_id) with (fmap (M := list) s_id). by rewrite list_lookup_fmap, Hs. }
      apply Forall2_lookup. intros j. destruct (decide (j = i)) as [->|Hj].
      + rewrite !list_lookup_alter. pose proof (proj1 (Forall2_lookup _ _ _) HF i) as H. destruct (t_spans T !! i) as [a|] eqn:Ea; inversion H as [a' b Hab Ea' Eb|Ea' Eb]; subst; cbn; constructor.
        destruct (R_same _ _ Hab) as (_ & _ & _ & ->). destruct (R_same _ _ Hxy) as (_ & _ & _ & ->).
        apply R_merge; [done|destruct (id_is_unknown (s_parent a)); [by apply R_parent|done]|done|]. rewrite (Hid a eq_refl). by destruct (id_is_unknown (s_parent a)).
      + rewrite !list_lookup_alter_ne by done. by apply Forall2_lookup.
    - unfold append_span. rewrite Hp. apply Forall2_app; [by apply Forall2_take|]. constructor; [done|by apply Forall2_drop].
  Qed.

  Lemma R_merged t a a' : Forall2 R (reports a) (reports a') -> Forall2 R (merged_spans t a) (merged_spans t a').
  Proof.
    unfold merged_spans, reports, add_all. intros H. assert (H0 : Forall2 R (t_spans (new_tree 0 t)) (t_spans (new_tree 0 t))) by constructor.
    revert H0. generalize (new_tree 0 t) at 1 3 as T. generalize (new_tree 0 t) as T'. intros T' T. revert T T' a' H. induction a as [|p a IH]; intros T T' a' H HT.
    - destruct a'; [done|inversion H].
    - destruct a' as [|p' a']; [inversion H|]. cbn [map] in *. apply Forall2_cons in H as [H1 H2]. cbn [foldl fst snd]. apply IH; [done|].
      by apply R_add; [apply map_order_list|..].
  Qed.

  (* ---------- correction ---------- *)

  Lemma dated_known d a b : dated d a b -> b <> 0 <-> a <> 0.
  Proof. intros [[-> ->]|(Ha & Hb & _)]; [done|]. lia. Qed.
  Lemma R_four x y : R x y -> four_timings y <-> four_timings x.
  Proof.
    intros (_ & _ & H1 & H2 & H3 & H4). unfold four_timings.
    by rewrite (dated_known _ _ _ H1), (dated_known _ _ _ H2), (dated_known _ _ _ H3), (dated_known _ _ _ H4).
  Qed.
  Lemma middle_moved d a b a' b' : dated d a a' -> dated d b b' -> a <> 0 -> b <> 0 -> middle a' b' = middle a b + d /\ 0 <= middle a b < 2^62 /\ 0 <= middle a' b' < 2^62.
  Proof.
    unfold middle. intros [[-> ->]|(Ha & Ha' & ->)] [[-> ->]|(Hb & Hb' & ->)] ? ?; try done. p2. rewrite !wrap64_id by (unfold int64_ok; p2; lia).
    rewrite !Z.quot_div_nonneg by lia. replace (a + d + (b + d)) with (a + b + d * 2) by lia. rewrite Z.div_add by lia.
    assert (G0 : 0 <= (a + b) / 2 < 4611686018427387904) by (split; [apply Z.div_pos; lia|apply Z.div_lt_upper_bound; lia]).
    assert (G1 : 0 <= (a + b + d * 2) / 2 < 4611686018427387904) by (split; [apply Z.div_pos; lia|apply Z.div_lt_upper_bound; lia]).
    rewrite Z.div_add in G1 by lia. lia.
  Qed.
  Lemma R_skew x y : R x y -> (~ four_timings x -> inner (s_id x) = outer (s_id x)) -> skew y = skew x + outer (s_id x) - inner (s_id x).
  Proof.
    intros HR Hl. pose proof (R_four _ _ HR) as H4. unfold skew. destruct (decide (four_timings x)) as [Hx|Hx].
    - rewrite decide_True by (by apply H4). destruct HR as (_ & _ & H1 & H2 & H3 & H5). destruct Hx as (? & ? & ? & ?).
      destruct (middle_moved _ _ _ _ _ H1 H2) as (E1 & ? & ?); [done|done|]. destruct (middle_moved _ _ _ _ _ H5 H3) as (E2 & ? & ?); [done|done|].
      p2. rewrite !wrap64_id by (unfold int64_ok; p2; lia). lia.
    - rewrite decide_False by (by rewrite H4). rewrite (Hl Hx). lia.
  Qed.
  Lemma R_start x y off : R x y -> (~ four_timings x -> inner (s_id x) = outer (s_id x)) -> own_start y (off - outer (s_id x)) = own_start x off.
  Proof.
    intros HR Hl. pose proof (R_four _ _ HR) as H4. unfold own_start. destruct (decide (four_timings x)) as [Hx|Hx].
    - rewrite decide_True by (by apply H4). destruct HR as (_ & _ & H1 & _). destruct Hx as (? & _). f_equal. destruct H1 as [[? _]|(_ & _ & ->)]; [done|lia].
    - rewrite decide_False by (by rewrite H4). destruct HR as (_ & Ht & _). rewrite (Hl Hx) in Ht. f_equal. lia.
  Qed.
  Lemma R_duration x y : R x y -> own_duration y = own_duration x.
  Proof.
    intros HR. pose proof (R_four _ _ HR) as H4. unfold own_duration. destruct (decide (four_timings x)) as [Hx|Hx].
    - rewrite decide_True by (by apply H4). destruct HR as (_ & _ & H1 & H2 & _). destruct Hx as (? & ? & _).
      destruct H1 as [[? _]|(_ & _ & ->)]; [done|]. destruct H2 as [[? _]|(_ & _ & ->)]; [done|]. f_equal. lia.
    - rewrite decide_False by (by rewrite H4). destruct HR as (-> & _). done.
  Qed.

  Section Trace.
    Context (s1 s2 : list span) (HF : Forall2 R s1 s2) (Hn : NoDup (ids s1)).
    Context (Hcall : forall p c, p ∈ s1 -> child s1 p c -> outer (s_id c) = inner (s_id p)).
    Context (Hlocal : forall x, x ∈ s1 -> ~ four_timings x -> inner (s_id x) = outer (s_id x)).

    Lemma partner x : x ∈ s1 -> exists y, y ∈ s2 /\ R x y.
    Proof. intros Hx. apply elem_of_list_lookup in Hx as [i Hi]. destruct (Forall2_lookup_l _ _ _ _ _ HF Hi) as (y & Hy & H). exists y. split; [by eapply elem_of_list_lookup_2|done]. Qed.

    Lemma R_path p p' l : p ∈ s1 -> R p p' -> descends s1 p l -> exists l', descends s2 p' l' /\ Forall2 R l l' /\ R (List.last l p) (List.last l' p') /\
      forall st off, path_start st (off - inner (s_id p)) l' = path_start st off l.
    Proof.
      intros Hp HR. revert p p' Hp HR. induction l as [|c l IH]; intros p p' Hp HR Hd.
      - exists []. split; [done|]. split; [constructor|]. split; [done|]. done.
      - destruct Hd as [Hc Hd]. pose proof Hc as (Hin & E & Hne). destruct (partner c Hin) as (c' & Hin' & HRc).
        destruct (IH c c' Hin HRc Hd) as (l' & Hd' & HF' & Hl & Hs). exists (c' :: l'). split; [|split; [|split]].
        + split; [|done]. destruct (R_ids _ _ HR) as [E1 _], (R_ids _ _ HRc) as [E2 E3]. split; [done|]. by rewrite E1, E2, E3.
        + by constructor.
        + rewrite !last_cons. exact Hl.
        + intros st off. cbn [path_start]. rewrite <- (Hcall p c Hp Hc), (R_start c c' off HRc (Hlocal c Hin)), (R_skew c c' HRc (Hlocal c Hin)).
          replace (off - outer (s_id c) + (skew c + outer (s_id c) - inner (s_id c))) with ((off + skew c) - inner (s_id c)) by lia. apply Hs.
    Qed.

    Context (root root' : span) (Hr : root ∈ s1) (HR : R root root') (H0 : outer (s_id root) = 0).

    Lemma R_corrected l : descends s1 root l -> exists l', descends s2 root' l' /\ R (List.last l root) (List.last l' root') /\ corrected_start root' l' = corrected_start root l.
    Proof.
      intros Hd. destruct (R_path root root' l Hr HR Hd) as (l' & Hd' & _ & Hl & Hs). exists l'. split; [done|]. split; [done|].
      unfold corrected_start. rewrite (R_skew root root' HR (Hlocal root Hr)), H0, Z.add_0_r, Hs.
      rewrite <- (R_start root root' 0 HR (Hlocal root Hr)), H0. done.
    Qed.
  End Trace.

  Lemma R_same_ids l l' : Forall2 R l l' -> Forall2 same_ids l l'.
  Proof. intros H. eapply Forall2_impl; [exact H|]. intros x y HR. by destruct (R_ids _ _ HR). Qed.
  Lemma R_candidate l l' x y : Forall2 R l l' -> y ∈ l' -> R x y -> root_candidate l x -> root_candidate l' y.
  Proof.
    intros HF Hy HR [_ H]. split; [done|]. destruct (R_ids _ _ HR) as [-> ->]. unfold ids. by rewrite (R_all_ids _ _ HF).
  Qed.
  Lemma same_by_id l x y : NoDup (ids l) -> x ∈ l -> y ∈ l -> s_id x = s_id y -> x = y.
  Proof.
    intros Hn Hx Hy E. apply elem_of_list_lookup in Hx as [i Hi], Hy as [j Hj].
    assert (i = j) as ->; [|congruence]. apply (NoDup_lookup (ids l) i j (s_id x) Hn); unfold ids; change (map s_id) with (fmap (M := list) s_id); rewrite list_lookup_fmap; [by rewrite Hi|by rewrite Hj, E].
  Qed.

  (** The whole trace with its own root. *)
  Section Emission.
    Context (t : Z) (s1 s2 out : list span) (r : span).
    Context (HF : Forall2 R s1 s2) (Hn : NoDup (ids s1)) (He : emission t s1 out).
    Context (Hone : one_root out r) (Hown : s_id r ∈ ids s1) (Hb : by_host outer inner out r).

    Lemma emission_own : exists root, one_root s1 root /\ s_id root = s_id r /\ Forall2 (fun s s' => exists start dur, s' = retimed s start dur) s1 out /\
      (forall path i, descends s1 root path -> s1 !! i = Some (List.last path root) ->
         out !! i = Some (retimed (List.last path root) (corrected_start root path) (own_duration (List.last path root)))) /\
      (forall p c, p ∈ s1 -> child s1 p c -> outer (s_id c) = inner (s_id p)) /\
      (forall x, x ∈ s1 -> ~ four_timings x -> inner (s_id x) = outer (s_id x)).
    Proof.
      destruct He as (all & root & Ha & Hc & Hu & HA & Hp & _). destruct Ha as [->|(f & Hf & Ha)].
      - exists root. split; [done|]. split; [symmetry; by apply (root_of_out s1 root out r)|]. split; [done|]. split; [done|].
        assert (Hin : forall x, x ∈ s1 -> exists st du, retimed x st du ∈ out).
        { intros x Hx. apply elem_of_list_lookup in Hx as [i Hi]. destruct (Forall2_lookup_l _ _ _ _ _ HA Hi) as (y & Hy & st & du & ->). exists st, du. by eapply elem_of_list_lookup_2. }
        destruct Hb as (_ & Hcall & Hlocal). split.
        + intros p c Hp' (Hc' & E & Hne). destruct (Hin p Hp') as (st & du & Hp2), (Hin c Hc') as (st' & du' & Hc2). apply (Hcall (retimed p st du) (retimed c st' du')); [done|by split].
        + intros x Hx Hf. destruct (Hin x Hx) as (st & du & Hx'). by apply (Hlocal (retimed x st du)).
      - exfalso. destruct (injected_is_root _ _ _ _ _ Hn Hf Ha Hc) as (-> & _ & Hna).
        rewrite (root_of_out all f out r) in Hown; [|done|by split|done|done]. by destruct Hf as (_ & _ & _ & ? & _).
    Qed.

    Lemma partner_root root : one_root s1 root -> exists root', R root root' /\ one_root s2 root'.
    Proof.
      intros Hr. destruct (one_root_transfer s1 s2 root Hn (R_same_ids _ _ HF) Hr) as (root' & [E _] & Hr'). exists root'. split; [|done].
      destruct (partner s1 s2 HF root) as (y & Hy & HR); [by destruct Hr as [[? _] _]|]. destruct (R_ids _ _ HR) as [Ey _].
      rewrite (same_by_id s2 root' y); [done| |by destruct Hr' as [[? _] _]|done|congruence]. unfold ids. by rewrite (R_all_ids _ _ HF).
    Qed.

    Lemma reclocked_exists : Forall (fun s => int64_ok (s_ts s)) s2 -> exists out', emission t s2 out'.
    Proof.
      intros Hok. destruct emission_own as (root & Hr & _). destruct (partner_root root Hr) as (root' & _ & Hr'). pose proof Hr' as [Hc Hu].
      pose proof Hc as [Hin _]. apply elem_of_list_lookup in Hin as [ri Hri].
      assert (Hn2 : NoDup (ids s2)) by (unfold ids; by rewrite (R_all_ids _ _ HF)).
      destruct (correct_whole s2 ri root' (length s2) Hn2 Hok Hri Hc) as (out' & seen & E & Hl & _ & _ & Hin & Hout); [done|].
      destruct (correct_all s2 ri root' (length s2) Hn2 Hok Hri Hc) as (out2 & seen2 & E2 & Hall); [done|]. rewrite E in E2. injection E2 as <- <-.
      exists out', s2, root'. split; [by left|]. split; [done|]. split; [done|]. split; [done|]. split; [done|]. done.
    Qed.

    Lemma reclocked_same out' : emission t s2 out' -> (forall x, x ∈ out -> ~ circular out x) -> Forall2 alike out out'.
    Proof.
      intros (all & root2 & Ha & Hc2 & Hu2 & HA & Hp2 & _) Hcirc. destruct emission_own as (root & Hr & Er & HO & Hp & Hcall & Hlocal).
      destruct (partner_root root Hr) as (root' & HRr & Hr'). assert (Hn2 : NoDup (ids s2)) by (unfold ids; by rewrite (R_all_ids _ _ HF)).
      assert (all = s2) as ->.
      { destruct Ha as [->|(f & Hf & _)]; [done|]. exfalso. destruct Hf as (_ & _ & _ & _ & c & c' & Hc & Hc' & Hcc & _). apply Hcc.
        destruct Hr' as [_ Hu']. by rewrite (Hu' c Hc), (Hu' c' Hc'). }
      assert (root2 = root') as -> by (destruct Hr' as [_ Hu']; by apply Hu').
      assert (H0 : outer (s_id root) = 0) by (rewrite Er; by destruct Hb).
      assert (Hrin : root ∈ s1) by (by destruct Hr as [[? _] _]).
      apply Forall2_same_length_lookup. split; [by rewrite <- (Forall2_length _ _ _ HO), <- (Forall2_length _ _ _ HA), (Forall2_length _ _ _ HF)|].
      intros i o o' Ho Ho'. destruct (Forall2_lookup_r _ _ _ _ _ HO Ho) as (x & Hx & st & du & Eo).
      destruct (Forall2_lookup_l _ _ _ _ _ HF Hx) as (y & Hy & HRxy).
      (* every span descends from the root *)
      assert (Hconn : connected s1 root x).
      { assert (Hoin : o ∈ out) by (by eapply elem_of_list_lookup_2). destruct (not_circular_connected out r o Hone Hoin (Hcirc o Hoin)) as (q & Hq & Eq).
        assert (HI : Forall2 same_ids out s1).
        { apply Forall2_flip. eapply Forall2_impl; [exact HO|]. intros a b (? & ? & ->). by split. }
        assert (Hrr : same_ids r root).
        { assert (Hro : r ∈ out) by (by destruct Hone as [[? _] _]). apply elem_of_list_lookup in Hro as [k Hk].
          destruct (Forall2_lookup_r _ _ _ _ _ HO Hk) as (a & Ha' & ? & ? & Ea). rewrite Ea in Er |- *. cbn in Er.
          rewrite (same_by_id s1 root a); [by split|done|done|by eapply elem_of_list_lookup_2|done]. }
        destruct (descends_transfer _ _ _ _ _ HI Hq Hrr) as (q' & Hq' & Elast & _). exists q'. split; [done|].
        apply (same_by_id s1); [done|by apply RootProofs.descends_in|by eapply elem_of_list_lookup_2|]. rewrite Elast, Eq, Eo. done. }
      destruct Hconn as (l & Hd & Hl). destruct (R_corrected s1 s2 HF Hcall Hlocal root root' Hrin HRr H0 l Hd) as (l' & Hd' & Hll & Hst).
      rewrite Hl in Hll. assert (Ey : List.last l' root' = y).
      { apply (same_by_id s2); [done| |by eapply elem_of_list_lookup_2|].
        - apply RootProofs.descends_in; [by destruct Hr' as [[? _] _]|done].
        - destruct (R_ids _ _ Hll) as [-> _], (R_ids _ _ HRxy) as [-> _]. done. }
      specialize (Hp l i Hd). rewrite Hl in Hp. specialize (Hp Hx). specialize (Hp2 l' i Hd'). rewrite Ey in Hp2. specialize (Hp2 Hy).
      rewrite Ho in Hp. rewrite Ho' in Hp2. injection Hp as Eo1. injection Hp2 as ->. rewrite Eo1.
      unfold alike, retimed. cbn. rewrite Hst, (R_duration x y HRxy). destruct HRxy as (-> & _). done.
    Qed.
  End Emission.
  (** The same with an injected root. *)
  Lemma Forall2_perm {A B} (Q : A -> B -> Prop) l k l2 : Forall2 Q l k -> l ≡ₚ l2 -> exists k2, Forall2 Q l2 k2 /\ k2 ≡ₚ k.
  Proof.
    intros HF Hp. revert k HF. induction Hp as [|x l l' _ IH|x y l|l l' l'' _ IH1 _ IH2]; intros k HF.
    - exists k. by inversion HF.
    - destruct k as [|b k]; [inversion HF|]. apply Forall2_cons in HF as [H1 H2]. destruct (IH k H2) as (k2 & H3 & H4). exists (b :: k2). split; [by constructor|]. by rewrite H4.
    - destruct k as [|b [|c k]]; [inversion HF|apply Forall2_cons in HF as [_ HF]; inversion HF|]. apply Forall2_cons in HF as [H1 HF]. apply Forall2_cons in HF as [H2 H3].
      exists (c :: b :: k). split; [by repeat constructor|]. apply Permutation_swap.
    - destruct (IH1 k HF) as (k2 & H1 & H2). destruct (IH2 k2 H1) as (k3 & H3 & H4). exists k3. split; [done|]. by rewrite H4.
  Qed.
  Lemma descends_perm l l' p q : l ≡ₚ l' -> descends l p q -> descends l' p q.
  Proof. intros Hp. revert p. induction q as [|c q IH]; intros p; [done|]. intros [(Hc & H) Hd]. split; [|by apply IH]. split; [by rewrite <- Hp|done]. Qed.

  Definition corrected_to (all : list span) (root s o : span) : Prop :=
    (forall path, descends all root path -> List.last path root = s -> o = retimed s (corrected_start root path) (own_duration s)).
  Lemma emission_corrected all root out :
    Forall2 (fun s s' => exists start dur, s' = retimed s start dur) all out ->
    (forall path i, descends all root path -> all !! i = Some (List.last path root) ->
       out !! i = Some (retimed (List.last path root) (corrected_start root path) (own_duration (List.last path root)))) -> Forall2 (corrected_to all root) all out.
  Proof.
    intros HF Hp. apply Forall2_same_length_lookup. split; [by apply Forall2_length in HF|]. intros i s o Hs Ho path Hd El. specialize (Hp path i Hd).
    rewrite El in Hp. specialize (Hp Hs). rewrite Ho in Hp. by injection Hp as ->.
  Qed.

  Lemma hull_moved l m a b c d : hull l a b -> hull m c d ->
    (forall s, s ∈ l -> exists s', s' ∈ m /\ s_ts s' = s_ts s /\ span_end s' = span_end s) -> (forall s, s ∈ m -> exists s', s' ∈ l /\ s_ts s' = s_ts s /\ span_end s' = span_end s) -> a = c /\ b = d.
  Proof.
    intros ((x & Hx & <-) & (y & Hy & <-) & H) ((x' & Hx' & <-) & (y' & Hy' & <-) & H') E E'.
    destruct (E x Hx) as (u & Hu & U1 & _), (E y Hy) as (v & Hv & _ & V2), (E' x' Hx') as (u' & Hu' & U1' & _), (E' y' Hy') as (v' & Hv' & _ & V2').
    pose proof (H' u Hu). pose proof (H' v Hv). pose proof (H u' Hu'). pose proof (H v' Hv'). lia.
  Qed.

  Lemma injected_same t s1 s2 out out' r : Forall2 R s1 s2 -> NoDup (ids s1) -> emission t s1 out -> emission t s2 out' ->
    one_root out r -> s_id r ∉ ids s1 -> by_host outer inner out r -> (forall c, child out r c -> inner (s_id c) = 0) ->
    (forall x, x ∈ out -> ~ circular out x) -> exists out2, out2 ≡ₚ out' /\ Forall2 alike out out2.
  Proof.
    intros HF Hn (all1 & root1 & Ha1 & Hc1 & Hu1 & HO1 & Hp1 & _) (all2 & root2 & Ha2 & Hc2 & Hu2 & HO2 & Hp2 & _) Hone Hnot (Hb0 & Hb1 & Hb2) Htop Hcirc.
    assert (Hn2 : NoDup (ids s2)) by (unfold ids; by rewrite (R_all_ids _ _ HF)).
    destruct Ha1 as [->|(f & Hf & Ha1)].
    { exfalso. apply Hnot. rewrite (root_of_out s1 root1 out r); [|done|by split|done|done]. destruct Hc1 as [Hc1 _]. unfold ids. change (map s_id) with (fmap (M := list) s_id). by apply elem_of_list_fmap_1. }
    destruct (injected_is_root _ _ _ _ _ Hn Hf Ha1 Hc1) as (-> & _ & Hna1).
    assert (Er : s_id r = s_id f) by (apply (root_of_out all1 f out r); [done|by split|done|done]).
    pose proof Hf as ((first & lst & cs & Ef & Hh & Hcs) & _ & Hfp & Hfn & c & c' & Hc & Hc' & Hcc & Hpar).
    assert (Hback : forall y, y ∈ s2 -> exists x, x ∈ s1 /\ R x y).
    { intros y Hy. apply elem_of_list_lookup in Hy as [i Hi]. destruct (Forall2_lookup_r _ _ _ _ _ HF Hi) as (x & Hx & H). exists x. split; [by eapply elem_of_list_lookup_2|done]. }
    assert (Hcand : forall x y, x ∈ s1 -> y ∈ s2 -> R x y -> root_candidate s1 x <-> root_candidate s2 y).
    { intros x y Hx Hy HR. unfold root_candidate, ids. destruct (R_ids _ _ HR) as [-> ->]. rewrite (R_all_ids _ _ HF). tauto. }
    destruct Ha2 as [->|(g & Hg & Ha2)].
    { exfalso. destruct (partner s1 s2 HF c) as (d & Hd & HR); [by destruct Hc|]. destruct (partner s1 s2 HF c') as (d' & Hd' & HR'); [by destruct Hc'|].
      apply Hcc. apply (same_by_id s1); [done|by destruct Hc|by destruct Hc'|]. destruct (R_ids _ _ HR) as [<- _], (R_ids _ _ HR') as [<- _].
      rewrite (Hu2 d), (Hu2 d'); [done|apply (Hcand c' d'); [by destruct Hc'|done|done|done]|apply (Hcand c d); [by destruct Hc|done|done|done]]. }
    destruct (injected_is_root _ _ _ _ _ Hn2 Hg Ha2 Hc2) as (-> & _ & Hna2).
    pose proof Hg as ((first2 & lst2 & cs2 & Eg & Hh2 & Hcs2) & _ & Hgp & Hgn & _ & _ & _ & _ & _ & Hpar2).
    (* spans below the root *)
    assert (Hin : forall x, x ∈ all1 -> exists st du, retimed x st du ∈ out).
    { intros x Hx. apply elem_of_list_lookup in Hx as [i Hi]. destruct (Forall2_lookup_l _ _ _ _ _ HO1 Hi) as (y & Hy & st & du & ->). exists st, du. by eapply elem_of_list_lookup_2. }
    assert (Hsub : forall x, x ∈ s1 -> x ∈ all1) by (intros x Hx; rewrite Ha1; by apply elem_of_list_further).
    assert (Hfin : f ∈ all1) by (rewrite Ha1; apply elem_of_list_here).
    assert (Hcall : forall p c, p ∈ all1 -> child all1 p c -> outer (s_id c) = inner (s_id p)).
    { intros p x Hp (Hx & E & Hne). destruct (Hin p Hp) as (st & du & Hp'), (Hin x Hx) as (st' & du' & Hx'). apply (Hb1 (retimed p st du) (retimed x st' du')); [done|by split]. }
    assert (Hlocal : forall x, x ∈ all1 -> ~ four_timings x -> inner (s_id x) = outer (s_id x)).
    { intros x Hx H4. destruct (Hin x Hx) as (st & du & Hx'). by apply (Hb2 (retimed x st du)). }
    assert (Hf4 : ~ four_timings f) by (rewrite Ef; unfold four_timings; cbn; tauto).
    assert (Hfo : outer (s_id f) = 0) by (by rewrite <- Er).
    assert (Hfi : inner (s_id f) = 0) by (by rewrite (Hlocal f Hfin Hf4)).
    assert (Hmoved : forall x y, root_candidate s1 x -> R x y -> s_ts y = s_ts x /\ span_end y = span_end x).
    { intros x y Hx HR. assert (Hxin : x ∈ s1) by (by destruct Hx).
      assert (Hne : s_parent x <> s_id x).
      { rewrite (Hpar x Hx). intros Ex. apply Hfn. rewrite Ex. unfold ids. change (map s_id) with (fmap (M := list) s_id). by apply elem_of_list_fmap_1. }
      assert (Hch : child all1 f x) by (split; [by apply Hsub|]; split; [by apply Hpar|done]).
      assert (Ho0 : outer (s_id x) = 0) by (by rewrite (Hcall f x Hfin Hch)).
      assert (Hi0 : inner (s_id x) = 0).
      { destruct (Hin x (Hsub x Hxin)) as (st & du & Hx'). apply (Htop (retimed x st du)). split; [done|]. split; [|done]. rewrite Er. exact (Hpar x Hx). }
      destruct HR as (E & Ht & _). rewrite Ho0, Hi0 in Ht. assert (Et : s_ts y = s_ts x) by lia. split; [done|]. unfold span_end. rewrite Et. rewrite E. done. }
    assert (Eh : first = first2 /\ lst = lst2).
    { apply (hull_moved cs cs2); [done|done|..].
      - intros x Hx. apply Hcs in Hx. destruct (partner s1 s2 HF x) as (y & Hy & HR); [by destruct Hx|]. exists y. split; [|by apply Hmoved].
        apply Hcs2. apply (Hcand x y); [by destruct Hx|done|done|done].
      - intros y Hy. apply Hcs2 in Hy. destruct (Hback y) as (x & Hx & HR); [by destruct Hy|]. assert (Hcx : root_candidate s1 x) by (apply (Hcand x y); [done|by destruct Hy|done|done]).
        exists x. split; [by apply Hcs|]. destruct (Hmoved x y Hcx HR) as [-> ->]. done. }
    destruct Eh as [<- <-].
    assert (g = f) as ->.
    { rewrite Eg, Ef. destruct (partner s1 s2 HF c) as (d & Hd & HR); [by destruct Hc|].
      assert (Hcd : root_candidate s2 d) by (apply (Hcand c d); [by destruct Hc|done|done|done]).
      rewrite <- (Hpar2 d Hcd), <- (Hpar c Hc). by destruct (R_ids _ _ HR) as [_ ->]. }
    assert (HRf : R f f).
    { split; [by destruct f|]. split; [left; lia|]. rewrite Ef. unfold dated. cbn. tauto. }
    assert (HFf : Forall2 R (f :: s1) (f :: s2)) by (by constructor).
    destruct (Forall2_perm _ _ _ all1 HFf) as (a2 & HFa & Hpa); [by symmetry|].
    assert (Hpa2 : all2 ≡ₚ a2) by (by rewrite Ha2, Hpa).
    pose proof (emission_corrected _ _ _ HO1 Hp1) as HQ1. pose proof (emission_corrected _ _ _ HO2 Hp2) as HQ2.
    destruct (Forall2_perm _ _ _ a2 HQ2 Hpa2) as (out2 & HQ & Hpo). exists out2. split; [done|].
    assert (Hna : NoDup (ids a2)) by (unfold ids in *; by rewrite (R_all_ids _ _ HFa)).
    apply Forall2_same_length_lookup. split; [by rewrite <- (Forall2_length _ _ _ HO1), <- (Forall2_length _ _ _ HQ), (Forall2_length _ _ _ HFa)|].
    intros i o o' Ho Ho'. destruct (Forall2_lookup_r _ _ _ _ _ HQ1 Ho) as (x & Hx & Hq1). destruct (Forall2_lookup_r _ _ _ _ _ HQ Ho') as (y & Hy & Hq2).
    assert (HRxy : R x y).
    { destruct (Forall2_lookup_l _ _ _ _ _ HFa Hx) as (y' & Hy' & H). rewrite Hy in Hy'. by injection Hy' as ->. }
    assert (Hconn : connected all1 f x).
    { assert (Hoin : o ∈ out) by (by eapply elem_of_list_lookup_2). destruct (not_circular_connected out r o Hone Hoin (Hcirc o Hoin)) as (q & Hq' & Eq).
      assert (HI : Forall2 same_ids out all1) by (apply Forall2_flip; eapply Forall2_impl; [exact HO1|]; intros a b (? & ? & ->); by split).
      assert (Hrr : same_ids r f).
      { assert (Hro : r ∈ out) by (by destruct Hone as [[? _] _]). apply elem_of_list_lookup in Hro as [k Hk].
        destruct (Forall2_lookup_r _ _ _ _ _ HO1 Hk) as (a & Ha' & ? & ? & Ea). rewrite Ea in Er |- *. cbn in Er.
        rewrite (same_by_id all1 f a); [by split|done|done|by eapply elem_of_list_lookup_2|done]. }
      destruct (descends_transfer _ _ _ _ _ HI Hq' Hrr) as (q' & Hq2' & Elast & _). exists q'. split; [done|].
      apply (same_by_id all1); [done|by apply RootProofs.descends_in|by eapply elem_of_list_lookup_2|]. rewrite Elast, Eq.
      destruct (Forall2_lookup_r _ _ _ _ _ HO1 Ho) as (x0 & Hx0 & ? & ? & ->). rewrite Hx in Hx0. by injection Hx0 as ->. }
    destruct Hconn as (l & Hd & Hl). destruct (R_corrected all1 a2 HFa Hcall Hlocal f f Hfin HRf Hfo l Hd) as (l' & Hd' & Hll & Hst).
    rewrite Hl in Hll. assert (Ey : List.last l' f = y).
    { apply (same_by_id a2); [done| |by eapply elem_of_list_lookup_2|].
      - apply RootProofs.descends_in; [rewrite Hpa; apply elem_of_list_here|done].
      - destruct (R_ids _ _ Hll) as [-> _], (R_ids _ _ HRxy) as [-> _]. done. }
    rewrite (Hq1 l Hd Hl). rewrite (Hq2 l' (descends_perm _ _ _ _ (symmetry Hpa2) Hd') Ey).
    unfold alike, retimed. cbn. rewrite Hst, (R_duration x y HRxy). destruct HRxy as (-> & _). done.
  Qed.
End Clocks.

(** Runs of the corrector. *)
Section Runs.
  Context (outer inner : Z -> Z) (evs evs' : list event) (l1 l2 l1' l2' : list entry) (t : Z) (out : list span) (r : span).
  Context (Hv : Forall valid_event evs) (Hv' : Forall valid_event evs').
  Context (E : (run evs).2 = l1 ++ LOut t (Emitted out) :: l2).
  Context (HF : Forall2 (reclocked outer inner) (reports (pending l1 t)) (reports (pending l1' t))).
  Context (Hone : one_root out r) (Hown : s_id r ∈ ids (reports (pending l1 t))) (Hb : by_host outer inner out r).

  Lemma clocks_fate : (run evs').2 = l1' ++ LOut t NoRoot :: l2' -> False.
  Proof.
    intros E'. destruct (emitted_is _ _ _ _ _ Hv E) as [_ He].
    pose proof (run_entry _ _ _ _ Hv' E') as (_ & n1 & n2 & load & _ & Hno & _). pose proof (run_prefix _ _ _ Hv' E') as Hg.
    destruct (merged_ok l1' t Hg) as [_ Hok]. apply Hno.
    apply (reclocked_exists outer inner t (merged_spans t (pending l1 t)) (merged_spans t (pending l1' t)) out r); [by apply R_merged|apply merged_NoDup|done|done|by apply merged_report_ids|done|done].
  Qed.

  Lemma clocks_same out' : (run evs').2 = l1' ++ LOut t (Emitted out') :: l2' -> (forall x, x ∈ out -> ~ circular out x) -> Forall2 alike out out'.
  Proof.
    intros E'. destruct (emitted_is _ _ _ _ _ Hv E) as [_ He]. destruct (emitted_is _ _ _ _ _ Hv' E') as [_ He'].
    apply (reclocked_same outer inner t (merged_spans t (pending l1 t)) (merged_spans t (pending l1' t)) out r); [by apply R_merged|apply merged_NoDup|done|done|by apply merged_report_ids|done|done].
  Qed.
End Runs.

Lemma clocks_injected outer inner evs evs' l1 l2 l1' l2' t out r : Forall valid_event evs -> Forall valid_event evs' ->
  (run evs).2 = l1 ++ LOut t (Emitted out) :: l2 -> Forall2 (reclocked outer inner) (reports (pending l1 t)) (reports (pending l1' t)) ->
  one_root out r -> s_id r ∉ ids (reports (pending l1 t)) -> by_host outer inner out r -> (forall c, child out r c -> inner (s_id c) = 0) ->
  forall out', (run evs').2 = l1' ++ LOut t (Emitted out') :: l2' -> (forall x, x ∈ out -> ~ circular out x) -> exists out2, out2 ≡ₚ out' /\ Forall2 alike out out2.
Proof.
  intros Hv Hv' E HF Hone Hown Hb Htop out' E'. destruct (emitted_is _ _ _ _ _ Hv E) as [_ He]. destruct (emitted_is _ _ _ _ _ Hv' E') as [_ He'].
  apply (injected_same outer inner t (merged_spans t (pending l1 t)) (merged_spans t (pending l1' t)) out out' r); [by apply R_merged|apply merged_NoDup|done|done|done|by rewrite merged_report_ids|done|done].
Qed.

(** Datadog does not get the times of the two sides. *)
Lemma alike_datadog out out' : Forall2 alike out out' -> map dd_convert out' = map dd_convert out.
Proof. induction 1 as [|x y l l' H _ IH]; [done|]. cbn [map]. rewrite IH. f_equal. rewrite H. reflexivity. Qed.
