(** Proofs for C31-C35: whole traces. *)
From Coq Require Import Sorted.
From Verif Require Import Base IdModel SpanModel TreeModel TreeSpec TreeProofs CorrectProofs.

(* ---------- correction of a whole trace ---------- *)

Lemma correct_whole spans ri root fuel :
  NoDup (ids spans) -> Forall (fun s => int64_ok (s_ts s)) spans -> spans !! ri = Some root -> root_candidate spans root ->
  (length spans <= fuel)%nat ->
  exists out seen, correct fuel spans ri None 0 = Some (out, seen) /\
    length out = length spans /\ NoDup seen /\
    (forall i, i ∈ seen <-> exists s, spans !! i = Some s /\ connected spans root s) /\
    (forall l i, descends spans root l -> spans !! i = Some (List.last l root) ->
       out !! i = Some (retimed (List.last l root) (corrected_start root l) (own_duration (List.last l root)))) /\
    (forall i s, spans !! i = Some s -> ~ connected spans root s -> out !! i = Some s).
Proof.
  intros Hn Hok Hri Hr Hf.
  destruct (correct_spec spans root Hn Hr Hok fuel [] ri root spans None None 0) as (out & seen & E & Hsk & Hout & Hin & Hnd & Hs); try done.
  change (wrap64 0) with 0 in E. exists out, seen. split; [done|]. split; [by apply skel_length|]. split; [done|]. split; [|split].
  - intros i. rewrite Hs. split.
    + intros (l & Hl & Hi). exists (List.last l root). split; [done|]. by exists l.
    + intros (s & Hi & l & Hl & <-). by exists l.
  - intros l i Hl Hi. rewrite (Hin l i) by done. unfold final, corrected_start. cbn [node_start]. done.
  - intros i s Hi Hc. rewrite Hout; [done|]. intros l [Hl Hi']. apply Hc. exists l. split; [done|]. congruence.
Qed.

Lemma correct_all spans ri root fuel :
  NoDup (ids spans) -> Forall (fun s => int64_ok (s_ts s)) spans -> spans !! ri = Some root -> root_candidate spans root ->
  (length spans <= fuel)%nat ->
  exists out seen, correct fuel spans ri None 0 = Some (out, seen) /\
    Forall2 (fun s s' => exists start dur, s' = retimed s start dur) spans out.
Proof.
  intros Hn Hok Hri Hr Hf. destruct (correct_whole spans ri root fuel) as (out & seen & E & Hl & _ & Hs & Hin & Hout); try done.
  exists out, seen. split; [done|]. apply Forall2_same_length_lookup. split; [done|]. intros i s s' Hi Hi'.
  destruct (decide (i ∈ seen)) as [H|H].
  - apply Hs in H as (s0 & Hi0 & l & Hl0 & Hl1). assert (s0 = s) as -> by congruence. rewrite (Hin l i) in Hi' by congruence.
    injection Hi' as <-. rewrite Hl1. eauto.
  - rewrite (Hout i s) in Hi'; [|done|].
    + injection Hi' as <-. exists (s_ts s), (s_dur s). by destruct s.
    + intros Hc. apply H, Hs. eauto.
Qed.

(* ---------- skew ---------- *)

Lemma screw_centres cs cr ss sr :
  0 < cs -> cs <= cr -> 0 < sr -> sr <= ss -> cr + cs < 2^63 -> ss + sr < 2^63 -> ss - sr <= cr - cs ->
  let k := screw (Timings cs cr ss sr) in
  cs <= sr + k /\ ss + k <= cr /\ Z.abs ((sr + k - cs) - (cr - (ss + k))) <= 1.
Proof.
  intros H1 H2 H3 H4 H5 H6 H7. unfold screw. cbn [tCS tCR tSS tSR].
  rewrite (wrap64_id (cr + cs)), (wrap64_id (sr + ss)) by (unfold int64_ok; p2; lia).
  pose proof (Z.quot_rem' (cr + cs) 2). pose proof (Z.rem_bound_pos (cr + cs) 2).
  pose proof (Z.quot_rem' (sr + ss) 2). pose proof (Z.rem_bound_pos (sr + ss) 2).
  rewrite wrap64_id by (unfold int64_ok; p2; lia). lia.
Qed.

Lemma skew_screw s : four_timings s -> skew s = screw (s_timings s).
Proof.
  intros H. unfold skew, screw, middle. rewrite decide_True by done. f_equal. f_equal; f_equal; f_equal; lia.
Qed.

Lemma total_skew_snoc l p : total_skew (l ++ [p]) = total_skew l + skew p.
Proof.
  unfold total_skew. induction l as [|a l IH]; [cbn; lia|].
  rewrite <- app_comm_cons. cbn [map foldr]. rewrite IH. lia.
Qed.

Lemma path_start_snoc st off l c :
  path_start st off (l ++ [c]) =
  if decide (before_2020 (own_start c (off + total_skew l))) then path_start st off l else own_start c (off + total_skew l).
Proof.
  revert st off. induction l as [|a l IH]; intros st off; [cbn; by rewrite Z.add_0_r|].
  rewrite <- app_comm_cons. cbn [path_start]. rewrite IH. unfold total_skew. cbn [map foldr]. by rewrite Z.add_assoc.
Qed.

(** A child recorded on the server's clock inside the server interval starts inside the corrected parent. *)
Lemma child_inside root l p c :
  let off := skew root + total_skew l in
  let start := corrected_start root (l ++ [p]) in
  let start' := corrected_start root (l ++ [p; c]) in
  four_timings p -> ~ four_timings c ->
  0 < tCS (s_timings p) -> tCS (s_timings p) <= tCR (s_timings p) -> 0 < tSR (s_timings p) -> tSR (s_timings p) <= tSS (s_timings p) ->
  tCR (s_timings p) + tCS (s_timings p) < 2^63 -> tSS (s_timings p) + tSR (s_timings p) < 2^63 ->
  tSS (s_timings p) - tSR (s_timings p) <= tCR (s_timings p) - tCS (s_timings p) ->
  tSR (s_timings p) <= s_ts c <= tSS (s_timings p) ->
  1577836800 * 1000000000 <= tCS (s_timings p) + off -> tCR (s_timings p) + off < 2^63 ->
  start <= start' <= start + own_duration p.
Proof.
  intros off start start' Hp Hc H1 H2 H3 H4 H5 H6 H7 H8 H9 H10.
  destruct (s_timings p) as [cs cr ss sr] eqn:Et. cbn [tCS tCR tSS tSR] in *.
  destruct (screw_centres cs cr ss sr) as (K1 & K2 & _); try done.
  assert (Hk : skew p = screw (Timings cs cr ss sr)) by (rewrite <- Et; by apply skew_screw). rewrite <- Hk in K1, K2.
  assert (Ep : own_start p off = cs + off).
  { unfold own_start. rewrite decide_True by done. rewrite Et. cbn [tCS]. apply wrap64_id. unfold int64_ok. p2. lia. }
  assert (Ec : own_start c (off + skew p) = s_ts c + (off + skew p)).
  { unfold own_start. rewrite decide_False by done. apply wrap64_id. unfold int64_ok. p2. lia. }
  assert (Es : start = cs + off).
  { unfold start, corrected_start. rewrite path_start_snoc. fold off. rewrite Ep. rewrite decide_False; [done|]. unfold before_2020. lia. }
  assert (Es' : start' = s_ts c + (off + skew p)).
  { unfold start', corrected_start. replace (l ++ [p; c]) with ((l ++ [p]) ++ [c]) by (by rewrite <- app_assoc). rewrite path_start_snoc.
    assert (Ht : total_skew (l ++ [p]) = total_skew l + skew p).
    { apply total_skew_snoc. }
    rewrite Ht, Z.add_assoc. fold off. rewrite Ec. rewrite decide_False; [done|]. unfold before_2020. lia. }
  rewrite Es, Es'. unfold own_duration. rewrite decide_True by done. rewrite Et. cbn [tCR tCS].
  rewrite wrap64_id by (unfold int64_ok; p2; lia). lia.
Qed.

(* ---------- roots ---------- *)

Lemma roots_exact spans i : i ∈ roots spans <-> exists s, spans !! i = Some s /\ root_candidate spans s.
Proof.
  unfold roots. rewrite elem_of_indices. split; intros (s & Hi & H); exists s; (split; [done|]).
  - split; [by eapply elem_of_list_lookup_2|]. unfold is_root in H. apply orb_true_iff in H as [H|H]; [left; lia|right].
    apply negb_true_iff, bool_decide_eq_false in H. intros Hin. apply H. by apply elem_of_list_to_set.
  - destruct H as (_ & [H|H]); apply orb_true_iff; [left; unfold is_root; lia|right].
    apply negb_true_iff, bool_decide_eq_false. intros Hin. apply H. by apply elem_of_list_to_set in Hin.
Qed.

Lemma roots_NoDup spans : NoDup (roots spans).
Proof. apply NoDup_indices. Qed.

Lemma descending_NoDup l : descending l -> NoDup l.
Proof.
  intros H. induction H as [|a l Hs IH Hf]; [constructor|]. apply NoDup_cons. split; [|done].
  intros Hin. rewrite Forall_forall in Hf. apply Hf in Hin. lia.
Qed.

Definition candidates (spans : list span) : list span := omap (fun i => spans !! i) (roots spans).

Lemma elem_of_candidates spans s : s ∈ candidates spans <-> root_candidate spans s.
Proof.
  unfold candidates. rewrite elem_of_list_omap. split.
  - intros (i & Hi & E). apply roots_exact in Hi as (s' & E' & H). congruence.
  - intros H. assert (Hs : s ∈ spans) by (by destruct H). apply elem_of_list_lookup in Hs as [i Hi]. exists i. split; [|done]. apply roots_exact. eauto.
Qed.

Lemma candidates_length spans : length (candidates spans) = length (roots spans).
Proof.
  unfold candidates. assert (H : forall i, i ∈ roots spans -> is_Some (spans !! i)) by (intros i Hi; apply roots_exact in Hi as (s & -> & _); eauto).
  induction (roots spans) as [|i l IH]; [done|]. cbn. destruct (H i (elem_of_list_here _ _)) as [s ->]. cbn. f_equal. apply IH. intros j Hj. apply H. by apply elem_of_list_further.
Qed.

Lemma candidates_NoDup spans : NoDup (ids spans) -> NoDup (candidates spans).
Proof.
  intros Hn. unfold candidates. pose proof (roots_NoDup spans) as Hr. induction Hr as [|i l Hi Hr IH]; [constructor|].
  cbn. destruct (spans !! i) as [s|] eqn:E; [|done]. apply NoDup_cons. split; [|done].
  intros Hin. apply elem_of_list_omap in Hin as (j & Hj & E'). apply Hi. by rewrite (same_index spans Hn i j s).
Qed.

(** Correct.go:312-321. *)
Lemma fake_root_fold rest first last :
  let r := foldl (fun acc s =>
      let first := if s_ts s <? acc.1 then s_ts s else acc.1 in
      let e := ts_add (s_ts s) (s_dur s) in
      let last := if acc.2 <? e then e else acc.2 in
      (first, last)) (first, last) rest in
  r.1 <= first /\ last <= r.2 /\ (r.1 = first \/ exists s, s ∈ rest /\ s_ts s = r.1) /\ (r.2 = last \/ exists s, s ∈ rest /\ span_end s = r.2) /\
  forall s, s ∈ rest -> r.1 <= s_ts s /\ span_end s <= r.2.
Proof.
  revert first last. induction rest as [|s rest IH]; intros first last; cbn [foldl].
  - cbn. split; [lia|]. split; [lia|]. split; [by left|]. split; [by left|]. intros s Hs. by apply elem_of_nil in Hs.
  - cbn [fst snd]. set (f1 := if s_ts s <? first then _ else _). change (ts_add (s_ts s) (s_dur s)) with (span_end s).
    set (l1 := if last <? span_end s then _ else _).
    destruct (IH f1 l1) as (I1 & I2 & I3 & I4 & I5). cbv zeta. set (r := foldl _ _ rest) in *. clearbody r.
    assert (F : f1 <= first /\ f1 <= s_ts s /\ (f1 = first \/ f1 = s_ts s)) by (unfold f1; destruct (Z.ltb_spec (s_ts s) first); lia).
    assert (L : last <= l1 /\ span_end s <= l1 /\ (l1 = last \/ l1 = span_end s)) by (unfold l1; destruct (Z.ltb_spec last (span_end s)); lia).
    clearbody f1 l1. split; [lia|]. split; [lia|]. split; [|split].
    + destruct I3 as [I3|(x & Hx & Ex)]; [|right; exists x; split; [by apply elem_of_list_further|done]].
      destruct F as (_ & _ & [F|F]); [left; lia|]. right. exists s. split; [apply elem_of_list_here|lia].
    + destruct I4 as [I4|(x & Hx & Ex)]; [|right; exists x; split; [by apply elem_of_list_further|done]].
      destruct L as (_ & _ & [L|L]); [left; lia|]. right. exists s. split; [apply elem_of_list_here|lia].
    + intros x Hx. apply elem_of_cons in Hx as [->|Hx]; [lia|]. by apply I5.
Qed.

Lemma fake_root_spec s0 rest : exists first last, hull (s0 :: rest) first last /\
  create_fake_root s0 rest = Span (s_parent s0) (s_trace s0) (s_trace s0) (str "fake-root") (str "fake-root") first (wrap64 (last - first)) ∅ (Timings 0 0 0 0).
Proof.
  unfold create_fake_root. pose proof (fake_root_fold rest (s_ts s0) (span_end s0)) as H. cbv zeta in H.
  change (ts_add (s_ts s0) (s_dur s0)) with (span_end s0). destruct (foldl _ _ rest) as [first last]. cbn [fst snd] in H.
  destruct H as (H1 & H2 & H3 & H4 & H5). exists first, last. split; [|done]. split; [|split].
  - destruct H3 as [H3|(s & Hs & E)]; [exists s0; split; [apply elem_of_list_here|done]|exists s; split; [by apply elem_of_list_further|done]].
  - destruct H4 as [H4|(s & Hs & E)]; [exists s0; split; [apply elem_of_list_here|done]|exists s; split; [by apply elem_of_list_further|done]].
  - intros s Hs. apply elem_of_cons in Hs as [->|Hs]; [lia|]. by apply H5.
Qed.

Lemma all_same_spec s0 rest : all_the_same_parent s0 rest = true <-> forall s, s ∈ s0 :: rest -> s_parent s = s_parent s0.
Proof.
  unfold all_the_same_parent. rewrite forallb_forall. split; intros H s Hs.
  - apply elem_of_list_In, H in Hs. lia.
  - apply elem_of_list_In, H in Hs. lia.
Qed.

(** Several candidates with one parent: the parent is absent. *)
Lemma shared_parent_absent spans P : NoDup (ids spans) -> (1 < length (roots spans))%nat ->
  (forall s, root_candidate spans s -> s_parent s = P) -> P ∉ ids spans.
Proof.
  intros Hn Hl Hall. pose proof (candidates_NoDup spans Hn) as Hc. rewrite <- candidates_length in Hl.
  destruct (candidates spans) as [|a [|b l]] eqn:E; cbn in Hl; [lia..|].
  assert (Ha : root_candidate spans a) by (apply elem_of_candidates; rewrite E; apply elem_of_list_here).
  assert (Hb : root_candidate spans b) by (apply elem_of_candidates; rewrite E; apply elem_of_list_further, elem_of_list_here).
  apply NoDup_cons in Hc as [Hab _]. assert (Hne : a <> b) by (intros ->; apply Hab, elem_of_list_here).
  pose proof (Hall a Ha) as Pa. pose proof (Hall b Hb) as Pb.
  destruct Ha as (Ha & [Sa|Sa]); [|by rewrite <- Pa]. destruct Hb as (Hb & [Sb|Sb]); [|by rewrite <- Pb].
  destruct Hne. apply (same_id spans Hn); [done..|congruence].
Qed.

(** The candidates after a span with the shared parent's id was added. *)
Lemma candidates_after l1 l2 f P : NoDup (ids (l1 ++ l2)) -> (1 < length (roots (l1 ++ l2)))%nat ->
  (forall s, root_candidate (l1 ++ l2) s -> s_parent s = P) -> s_id f = P ->
  forall s, root_candidate (l1 ++ f :: l2) s <-> s = f /\ (s_parent f = P \/ s_parent f ∉ ids (l1 ++ l2)).
Proof.
  intros Hn Hl Hall Hf. pose proof (shared_parent_absent _ P Hn Hl Hall) as Habs. intros s.
  assert (Hin : forall x, x ∈ l1 ++ f :: l2 <-> x = f \/ x ∈ l1 ++ l2) by (intros x; rewrite !elem_of_app, elem_of_cons; tauto).
  assert (Hids : forall x, x ∈ ids (l1 ++ f :: l2) <-> x = P \/ x ∈ ids (l1 ++ l2)).
  { intros x. unfold ids. rewrite !map_app. cbn [map]. rewrite !elem_of_app, elem_of_cons, Hf. tauto. }
  unfold root_candidate. rewrite Hin, Hids. split.
  - intros [[->|Hs] H].
    + split; [done|]. destruct H as [H|H]; [left; congruence|right; tauto].
    + exfalso. assert (Hsr : s_parent s = s_id s \/ s_parent s ∉ ids (l1 ++ l2)) by (destruct H as [H|H]; tauto).
      assert (Hp : s_parent s = P) by (apply Hall; split; done). destruct H as [H|H]; [|tauto].
      apply Habs. rewrite <- Hp, H. by apply elem_of_list_fmap_1.
  - intros [-> H]. split; [by left|]. rewrite Hf. destruct H as [H|H]; [by left|].
    destruct (decide (s_parent f = P)) as [E|E]; [by left|]. right. tauto.
Qed.

Lemma find_roots_spec ord now t : map_order ord -> descending (ids (t_spans t)) -> NoDup (ids (t_spans t)) ->
  let spans := t_spans t in
  let '(t', rs) := find_roots ord now t in
  rs = roots (t_spans t') /\
  ((t' = t /\ ~ ((1 < length (roots spans))%nat /\ exists P, forall s, root_candidate spans s -> s_parent s = P)) \/
   (exists P s0 f first last, (1 < length (roots spans))%nat /\ (forall s, root_candidate spans s -> s_parent s = P) /\ P ∉ ids spans /\
      root_candidate spans s0 /\ hull (candidates spans) first last /\
      f = Span P (s_trace s0) (s_trace s0) (str "fake-root") (str "fake-root") first (wrap64 (last - first)) ∅ (Timings 0 0 0 0) /\
      (exists l1 l2, spans = l1 ++ l2 /\ t' = Tree (t_id t) (l1 ++ f :: l2) (t_started t) now (u16 (t_count t + 1)) /\ descending (ids (l1 ++ f :: l2))))).
Proof.
  intros Ho Hd Hn spans. unfold find_roots. fold spans. change (omap (fun i => spans !! i) (roots spans)) with (candidates spans).
  pose proof (candidates_length spans) as Hl. destruct (candidates spans) as [|s0 [|s1 rest]] eqn:Ec.
  - split; [done|]. left. split; [done|]. cbn in Hl. lia.
  - split; [done|]. left. split; [done|]. cbn in Hl. lia.
  - pose proof (all_same_spec s0 (s1 :: rest)) as Ha. destruct (all_the_same_parent s0 (s1 :: rest)).
    + split; [done|]. right. assert (Hall : forall s, root_candidate spans s -> s_parent s = s_parent s0).
      { intros s Hs. apply Ha; [done|]. rewrite <- Ec. by apply elem_of_candidates. }
      assert (Hlen : (1 < length (roots spans))%nat) by (rewrite <- Hl; cbn; lia).
      pose proof (shared_parent_absent spans (s_parent s0) Hn Hlen Hall) as Habs.
      destruct (fake_root_spec s0 (s1 :: rest)) as (first & last & Hh & Ef). rewrite Ef.
      eexists (s_parent s0), s0, _, first, last. split; [done|]. split; [done|]. split; [done|].
      split; [apply elem_of_candidates; rewrite Ec; apply elem_of_list_here|]. split; [exact Hh|]. split; [reflexivity|].
      set (f := Span _ _ _ _ _ _ _ _ _). destruct (add_span_cases ord now f t Ho Hd) as [(l1 & l2 & E1 & _ & E2 & E3)|(l1 & s & l2 & E1 & E2 & _)].
      * by exists l1, l2.
      * exfalso. apply Habs. unfold spans. rewrite E1. change (s_parent s0) with (s_id f). rewrite <- E2. unfold ids. rewrite map_app. apply elem_of_app. right. apply elem_of_list_here.
    + split; [done|]. left. split; [done|]. intros (_ & P & HP). assert (false = true); [|done]. apply Ha.
      intros s Hs. rewrite <- Ec in Hs. apply elem_of_candidates, HP in Hs.
      assert (H0 : root_candidate spans s0) by (apply elem_of_candidates; rewrite Ec; apply elem_of_list_here). apply HP in H0. congruence.
Qed.

(** The injected root for several candidates with the same parent [P], in a trace with id [T]. *)
Lemma injected_root ord now t T P : map_order ord -> descending (ids (t_spans t)) -> Forall (fun s => s_trace s = T) (t_spans t) ->
  (1 < length (roots (t_spans t)))%nat -> (forall s, root_candidate (t_spans t) s -> s_parent s = P) ->
  exists t' rs first last f, find_roots ord now t = (t', rs) /\
    f = Span P T T (str "fake-root") (str "fake-root") first (wrap64 (last - first)) ∅ (Timings 0 0 0 0) /\
    (exists l, hull l first last /\ forall s, s ∈ l <-> root_candidate (t_spans t) s) /\
    P ∉ ids (t_spans t) /\ t_spans t' ≡ₚ f :: t_spans t /\ descending (ids (t_spans t')) /\
    (T ∉ ids (t_spans t) -> exists i, rs = [i] /\ t_spans t' !! i = Some f) /\
    (T ∈ ids (t_spans t) -> rs = []).
Proof.
  intros Ho Hd HT Hlen Hall. pose proof (descending_NoDup _ Hd) as Hn.
  pose proof (find_roots_spec ord now t Ho Hd Hn) as H. cbv zeta in H. destruct (find_roots ord now t) as [t' rs].
  destruct H as (Hrs & [(_ & Hneg)|(P' & s0 & f & first & last & _ & HP & Habs & Hs0 & Hh & Ef & l1 & l2 & E1 & -> & Hd')]).
  { destruct Hneg. split; [done|]. by exists P. }
  assert (P' = P) as -> by (rewrite <- (HP s0 Hs0); by apply Hall).
  assert (s_trace s0 = T) as Et by (rewrite Forall_forall in HT; apply HT; by destruct Hs0). rewrite Et in Ef.
  exists (Tree (t_id t) (l1 ++ f :: l2) (t_started t) now (u16 (t_count t + 1))), rs, first, last, f. cbn [t_spans] in *. subst rs.
  split; [done|]. split; [done|]. split.
  { exists (candidates (t_spans t)). split; [done|]. apply elem_of_candidates. }
  split; [done|]. split; [by rewrite E1, Permutation_middle|]. split; [done|].
  assert (HC : forall s, root_candidate (l1 ++ f :: l2) s <-> s = f /\ (s_parent f = P \/ s_parent f ∉ ids (t_spans t))).
  { rewrite E1 in *. apply candidates_after; [done..|]. by rewrite Ef. }
  assert (Epar : s_parent f = T) by (by rewrite Ef). split; intros HTin.
  - assert (Hf : root_candidate (l1 ++ f :: l2) f) by (apply HC; split; [done|]; right; by rewrite Epar).
    assert (Hi : (l1 ++ f :: l2) !! length l1 = Some f) by (by rewrite lookup_app_r, Nat.sub_diag by lia).
    exists (length l1). split; [|done].
    assert (Hin : length l1 ∈ roots (l1 ++ f :: l2)) by (apply roots_exact; eauto).
    pose proof (roots_NoDup (l1 ++ f :: l2)) as Hnr. pose proof (descending_NoDup _ Hd') as Hn'.
    assert (Hone : forall j, j ∈ roots (l1 ++ f :: l2) -> j = length l1).
    { intros j Hj. apply roots_exact in Hj as (s & Hj & Hs). apply HC in Hs as [-> _]. by apply (same_index (l1 ++ f :: l2) Hn' _ _ f). }
    destruct (roots (l1 ++ f :: l2)) as [|i [|j l]]; [by apply elem_of_nil in Hin| |].
    + f_equal. apply Hone, elem_of_list_here.
    + exfalso. apply NoDup_cons in Hnr as [Hni _]. apply Hni.
      rewrite (Hone i) by apply elem_of_list_here. rewrite (Hone j) by apply elem_of_list_further, elem_of_list_here. apply elem_of_list_here.
  - destruct (roots (l1 ++ f :: l2)) as [|i l] eqn:Er; [done|]. exfalso.
    assert (Hin : i ∈ roots (l1 ++ f :: l2)) by (rewrite Er; apply elem_of_list_here).
    apply roots_exact in Hin as (s & _ & Hs). apply HC in Hs as [_ [H|H]]; [apply Habs; by rewrite <- H, Epar|by rewrite Epar in H].
Qed.

(** No injection otherwise. *)
Lemma no_injection ord now t : map_order ord -> descending (ids (t_spans t)) ->
  ~ ((1 < length (roots (t_spans t)))%nat /\ exists P, forall s, root_candidate (t_spans t) s -> s_parent s = P) ->
  find_roots ord now t = (t, roots (t_spans t)).
Proof.
  intros Ho Hd Hneg. pose proof (find_roots_spec ord now t Ho Hd (descending_NoDup _ Hd)) as H. cbv zeta in H.
  destruct (find_roots ord now t) as [t' rs]. destruct H as (-> & [(-> & _)|(P & s0 & f & first & last & Hl & HP & _)]); [done|].
  destruct Hneg. eauto.
Qed.

(* ---------- arrival order does not show after correction ---------- *)

Lemma rel_own a b : same_but_time a b -> s_id a = s_id b /\ s_parent a = s_parent b /\ skew a = skew b /\ own_duration a = own_duration b /\
  (forall off, own_start a off = own_start b off) /\ (forall x y, retimed a x y = retimed b x y).
Proof.
  intros [->|(H & st & du & ->)]; [done|]. assert (H' : four_timings (retimed a st du)) by done.
  unfold skew, own_duration, own_start. rewrite !(decide_True _ _ H), ?(decide_True _ _ H'). done.
Qed.

Lemma rel_child s1 s2 p p' c : Forall2 same_but_time s1 s2 -> same_but_time p p' -> child s1 p c -> exists c', child s2 p' c' /\ same_but_time c c'.
Proof.
  intros Hs Hp (Hc & H1 & H2). apply elem_of_list_lookup in Hc as [i Hi]. destruct (Forall2_lookup_l _ _ _ _ _ Hs Hi) as (c' & Hi' & Hr).
  exists c'. split; [|done]. destruct (rel_own _ _ Hp) as (E & _). destruct (rel_own _ _ Hr) as (E1 & E2 & _).
  split; [by eapply elem_of_list_lookup_2|]. split; congruence.
Qed.

Lemma rel_descends s1 s2 l : Forall2 same_but_time s1 s2 -> forall p p', same_but_time p p' -> descends s1 p l ->
  exists l', descends s2 p' l' /\ Forall2 same_but_time l l' /\ same_but_time (List.last l p) (List.last l' p').
Proof.
  intros Hs. induction l as [|c l IH]; intros p p' Hp Hd.
  - exists []. split; [done|]. split; [constructor|done].
  - destruct Hd as [Hc Hd]. destruct (rel_child _ _ _ _ _ Hs Hp Hc) as (c' & Hc' & Hr). destruct (IH c c' Hr Hd) as (l' & Hd' & Hl & Hla).
    exists (c' :: l'). split; [done|]. split; [by constructor|]. by rewrite !last_cons.
Qed.

Lemma rel_path l l' : Forall2 same_but_time l l' -> forall st off, path_start st off l = path_start st off l'.
Proof.
  induction 1 as [|a b l l' Hr Hl IH]; intros st off; [done|]. cbn [path_start]. destruct (rel_own _ _ Hr) as (_ & _ & Es & _ & Eo & _).
  by rewrite Eo, Es, IH.
Qed.

Lemma rel_sym a b : same_but_time a b -> same_but_time b a.
Proof. intros [->|(H & st & du & ->)]; [by left|]. right. split; [done|]. exists (s_ts a), (s_dur a). by destruct a. Qed.

Lemma rel_ids s1 s2 : Forall2 same_but_time s1 s2 -> ids s1 = ids s2.
Proof. induction 1 as [|a b l l' Hr Hl IH]; [done|]. unfold ids in *. cbn [map]. destruct (rel_own _ _ Hr) as (E & _). congruence. Qed.

Lemma descends_in spans root l : root ∈ spans -> descends spans root l -> List.last l root ∈ spans.
Proof.
  revert root. induction l as [|c l IH]; intros root Hr Hd; [done|]. destruct Hd as [Hc Hd]. rewrite last_cons. apply IH; [|done]. by destruct Hc.
Qed.

Lemma order_hidden s1 s2 ri root fuel : NoDup (ids s1) -> Forall2 same_but_time s1 s2 ->
  Forall (fun s => int64_ok (s_ts s)) s1 -> Forall (fun s => int64_ok (s_ts s)) s2 ->
  s1 !! ri = Some root -> root_candidate s1 root -> (length s1 <= fuel)%nat ->
  exists out1 out2 seen1 seen2, correct fuel s1 ri None 0 = Some (out1, seen1) /\ correct fuel s2 ri None 0 = Some (out2, seen2) /\
    forall i s, s1 !! i = Some s -> connected s1 root s -> out1 !! i = out2 !! i.
Proof.
  intros Hn Hs Hok1 Hok2 Hri Hrc Hf. destruct (Forall2_lookup_l _ _ _ _ _ Hs Hri) as (root' & Hri' & Hr).
  pose proof (rel_ids _ _ Hs) as Ei. assert (Hn2 : NoDup (ids s2)) by (by rewrite <- Ei).
  destruct (rel_own _ _ Hr) as (E1 & E2 & E3 & _ & E5 & _).
  assert (Hrc' : root_candidate s2 root').
  { destruct Hrc as [_ Hrc]. split; [by eapply elem_of_list_lookup_2|]. by rewrite <- E1, <- E2, <- Ei. }
  destruct (correct_whole s1 ri root fuel) as (out1 & seen1 & C1 & _ & _ & _ & In1 & _); try done.
  destruct (correct_whole s2 ri root' fuel) as (out2 & seen2 & C2 & _ & _ & _ & In2 & _); try done; [by rewrite <- (Forall2_length _ _ _ Hs)|].
  exists out1, out2, seen1, seen2. split; [done|]. split; [done|]. intros i s Hi (l & Hl & Hla). rewrite <- Hla in Hi.
  destruct (rel_descends _ _ l Hs _ _ Hr Hl) as (l' & Hl' & Hll & Hlast).
  destruct (Forall2_lookup_l _ _ _ _ _ Hs Hi) as (s' & Hi' & Hrs).
  assert (s' = List.last l' root') as ->.
  { apply (same_id s2 Hn2); [by eapply elem_of_list_lookup_2|apply descends_in; [by destruct Hrc'|done]|].
    destruct (rel_own _ _ Hrs) as (F1 & _). destruct (rel_own _ _ Hlast) as (F2 & _). congruence. }
  rewrite (In1 l i Hl Hi), (In2 l' i Hl' Hi'). f_equal. destruct (rel_own _ _ Hlast) as (_ & _ & _ & F4 & _ & F6).
  rewrite F6, F4. f_equal. unfold corrected_start. by rewrite E5, E3, (rel_path _ _ Hll).
Qed.

Lemma correct_terminates ord now tr adds ri : map_order ord ->
  let spans := t_spans (add_all ord adds (new_tree now tr)) in
  Forall (fun s => int64_ok (s_ts s)) spans -> ri ∈ roots spans ->
  exists out seen, correct (length spans) spans ri None 0 = Some (out, seen) /\ NoDup seen /\ length out = length spans.
Proof.
  intros Ho spans Hok Hri. destruct (tree_contents ord now tr adds Ho) as (Hd & _). fold spans in Hd.
  apply roots_exact in Hri as (root & Hi & Hr).
  destruct (correct_whole spans ri root (length spans)) as (out & seen & E & Hl & Hn & _); try done; [by apply descending_NoDup|].
  by exists out, seen.
Qed.
