(** Proofs for C96: the order of arrival. *)
From Coq Require Import Sorted.
From Verif Require Import Base IdModel SpanModel TreeModel TreeSpec TreeProofs CorrectProofs RootProofs FinishModel FinishSpec FinishProofs FinishRun FinishTheorems
  ReplaySpec ReplayProofs ConnectSpec ConnectProofs OrderSpec.

(* ---------- the reports with one id ---------- *)

(** What client and server say together. *)
Definition both (c s : span) (st du : Z) : span :=
  Span (s_id s) (if s_parent s =? 0 then s_parent c else s_parent s) (s_trace s) (first_nonempty (s_name s) (s_name c))
    (first_nonempty (s_service s) (s_service c)) st du (s_tags s ∪ s_tags c)
    (Timings (tCS (s_timings c)) (tCR (s_timings c)) (tSS (s_timings s)) (tSR (s_timings s))).

Lemma pos_id a : 0 <= a -> (if 0 <? a then a else 0) = a.
Proof. intros H. destruct (Z.ltb_spec 0 a); lia. Qed.
Lemma pos_same a : (if 0 <? a then a else a) = a.
Proof. by destruct (0 <? a). Qed.

Lemma first_twice a b : first_nonempty a (first_nonempty a b) = first_nonempty a b.
Proof. unfold first_nonempty. by destruct (decide (a = [])). Qed.
Lemma first_last a b : first_nonempty (first_nonempty a b) b = first_nonempty a b.
Proof. unfold first_nonempty. destruct (decide (a = [])); [by destruct (decide (b = []))|by rewrite decide_False]. Qed.
Lemma union_twice (a b : gmap gostring gostring) : a ∪ (a ∪ b) = a ∪ b.
Proof. by rewrite (assoc_L (∪)), (idemp_L (∪)). Qed.
Lemma union_last (a b : gmap gostring gostring) : (a ∪ b) ∪ b = a ∪ b.
Proof. by rewrite <- (assoc_L (∪)), (idemp_L (∪)). Qed.

Section Halves.
  Context (c s : span) (H : two_halves c s).

  Lemma client_then_server : updated_span c s = both c s (s_ts c) (s_dur c).
  Proof.
    destruct H as (Ei & Et & Ep & (C1 & C2 & C3 & C4) & (S1 & S2 & S3 & S4 & S5) & _). unfold updated_span, merged, both.
    rewrite (decide_True _ _ S5). clear H S5.
    destruct s as [i p t nm sv ts du tg [a b e d]], c as [i' p' t' nm' sv' ts' du' tg' [a' b' e' d']].
    cbn [s_id s_parent s_trace s_name s_service s_ts s_dur s_tags s_timings tCS tCR tSS tSR set_parent] in *. subst.
    destruct (Z.eqb_spec p' 0), (Z.eqb_spec p 0);
      cbn [s_id s_parent s_trace s_name s_service s_ts s_dur s_tags s_timings tCS tCR tSS tSR set_parent]; rewrite ?pos_id by done; f_equal; lia.
  Qed.

  Lemma client_not_server : ~ from_server c.
  Proof. destruct H as (_ & _ & _ & (C1 & C2 & _) & _). unfold from_server. lia. Qed.
  Lemma server_is : from_server s.
  Proof. destruct H as (_ & _ & _ & _ & (_ & _ & _ & _ & S5) & _). exact S5. Qed.

  Lemma server_then_client : updated_span s c = both c s (s_ts s) (s_dur s).
  Proof.
    pose proof client_not_server as Hn.
    destruct H as (Ei & Et & Ep & (C1 & C2 & C3 & C4) & (S1 & S2 & S3 & S4 & S5) & _). unfold updated_span, merged, both.
    rewrite (decide_False _ _ Hn). clear H S5 Hn.
    destruct s as [i p t nm sv ts du tg [a b e d]], c as [i' p' t' nm' sv' ts' du' tg' [a' b' e' d']].
    cbn [s_id s_parent s_trace s_name s_service s_ts s_dur s_tags s_timings tCS tCR tSS tSR set_parent] in *. subst.
    destruct (Z.eqb_spec p 0); cbn [s_id s_parent s_trace s_name s_service s_ts s_dur s_tags s_timings tCS tCR tSS tSR set_parent]; rewrite ?pos_id by done; f_equal; lia.
  Qed.

  Lemma both_then_server st du : updated_span (both c s st du) s = both c s st du.
  Proof.
    pose proof server_is as Hs. destruct H as (Ei & Et & Ep & _). unfold updated_span, merged. rewrite (decide_True _ _ Hs). unfold both, set_parent. clear H Hs.
    destruct s as [i p t nm sv ts du' tg [a b e d]], c as [i' p' t' nm' sv' ts' du'' tg' [a' b' e' d']].
    cbn [s_id s_parent s_trace s_name s_service s_ts s_dur s_tags s_timings tCS tCR tSS tSR] in *. subst.
    destruct (Z.eqb_spec p 0); cbn [s_id s_parent s_trace s_name s_service s_ts s_dur s_tags s_timings tCS tCR tSS tSR].
    - destruct (Z.eqb_spec p' 0); cbn [s_id s_parent s_trace s_name s_service s_ts s_dur s_tags s_timings tCS tCR tSS tSR];
        rewrite !first_twice, union_twice, !pos_same; f_equal; lia.
    - rewrite (proj2 (Z.eqb_neq _ _)) by done. cbn [s_id s_parent s_trace s_name s_service s_ts s_dur s_tags s_timings tCS tCR tSS tSR].
      by rewrite !first_twice, union_twice, !pos_same.
  Qed.

  Lemma both_then_client st du : updated_span (both c s st du) c = both c s st du.
  Proof.
    pose proof client_not_server as Hs. destruct H as (Ei & Et & Ep & _). unfold updated_span, merged. rewrite (decide_False _ _ Hs). unfold both, set_parent. clear H Hs.
    destruct s as [i p t nm sv ts du' tg [a b e d]], c as [i' p' t' nm' sv' ts' du'' tg' [a' b' e' d']].
    cbn [s_id s_parent s_trace s_name s_service s_ts s_dur s_tags s_timings tCS tCR tSS tSR] in *. subst.
    destruct (Z.eqb_spec p 0); cbn [s_id s_parent s_trace s_name s_service s_ts s_dur s_tags s_timings tCS tCR tSS tSR].
    - destruct (Z.eqb_spec p' 0); cbn [s_id s_parent s_trace s_name s_service s_ts s_dur s_tags s_timings tCS tCR tSS tSR];
        by rewrite !first_last, union_last, !pos_same.
    - rewrite (proj2 (Z.eqb_neq _ _)) by done. cbn [s_id s_parent s_trace s_name s_service s_ts s_dur s_tags s_timings tCS tCR tSS tSR].
      by rewrite !first_last, union_last, !pos_same.
  Qed.

  Lemma both_same st du st' du' : (st = s_ts c /\ du = s_dur c) \/ (st = s_ts s /\ du = s_dur s) ->
    (st' = s_ts c /\ du' = s_dur c) \/ (st' = s_ts s /\ du' = s_dur s) -> same_but_time (both c s st du) (both c s st' du').
  Proof.
    intros H1 H2. destruct H as (_ & _ & _ & _ & _ & [H4|[E1 E2]]).
    - right. split; [exact H4|]. by exists st', du'.
    - left. f_equal; lia.
  Qed.

  Lemma halves_differ : c <> s.
  Proof. intros E. pose proof client_not_server. pose proof server_is. by rewrite E in *. Qed.
End Halves.

(** After any reports by the two: one of them as it was, or both together with the times of the one that came first. *)
Lemma two_reports c s l x : two_halves c s -> x = c \/ x = s -> Forall (fun y => y = c \/ y = s) l ->
  (Forall (fun y => y = x) l /\ updates l x = x) \/ ((exists y, y ∈ l /\ y <> x) /\ updates l x = both c s (s_ts x) (s_dur x)).
Proof.
  intros H Hx Hl. induction l as [|y l IH] using rev_ind; [by left|].
  unfold updates in *. rewrite foldl_app. cbn [foldl]. apply Forall_app in Hl as [Hl Hy]. apply Forall_inv in Hy.
  destruct (IH Hl) as [[A1 A2]|[(z & Hz & Hzx) A2]]; rewrite A2; clear IH A2.
  - destruct (decide (y = x)) as [->|Hn].
    + left. split; [apply Forall_app; split; [done|by constructor]|]. apply updated_self.
    + right. split; [exists y; split; [apply elem_of_app; right; apply elem_of_list_here|done]|].
      destruct Hx as [->| ->], Hy as [->| ->]; try done; [by apply client_then_server|by apply server_then_client].
  - right. split; [exists z; split; [apply elem_of_app; by left|done]|].
    destruct Hy as [->| ->]; [by apply both_then_client|by apply both_then_server].
Qed.

Lemma held_list id l : foldl (held_next id) None l =
  match List.filter (fun s => s_id s =? id) l with [] => None | x :: k => Some (updates k x) end.
Proof.
  rewrite held_next_filter.
  assert (Hf : Forall (fun s => s_id s = id) (List.filter (fun s => s_id s =? id) l)).
  { apply Forall_forall. intros y Hy. apply elem_of_list_In, filter_In in Hy as [_ Hy]. lia. }
  destruct (List.filter _ l) as [|x k]; [done|]. apply Forall_cons in Hf as [Hx Hk]. cbn [foldl]. unfold held_next at 2. rewrite Hx, Z.eqb_refl.
  by apply held_next_same.
Qed.

Lemma in_filter id l x : x ∈ List.filter (fun s => s_id s =? id) l <-> x ∈ l /\ s_id x = id.
Proof. rewrite !elem_of_list_In, filter_In, Z.eqb_eq. done. Qed.

Lemma reports_of_id l id x k : orderly l -> List.filter (fun s => s_id s =? id) l = x :: k ->
  (Forall (fun y => y = x) k /\ updates k x = x) \/
  (exists c s, two_halves c s /\ c ∈ l /\ s ∈ l /\ (x = c \/ x = s) /\ s_id c = id /\ updates k x = both c s (s_ts x) (s_dur x)).
Proof.
  intros Ho E. assert (Hin : forall y, y ∈ x :: k <-> y ∈ l /\ s_id y = id) by (intros y; rewrite <- E; apply in_filter).
  destruct (decide (Forall (fun y => y = x) k)) as [Hk|Hk].
  - left. split; [done|]. clear -Hk. induction Hk as [|y k -> Hk IH]; [done|]. unfold updates in *. cbn [foldl]. by rewrite updated_self.
  - right. apply not_Forall_Exists in Hk; [|apply _]. apply Exists_exists in Hk as (y & Hy & Hyx). cbn in Hyx.
    destruct (proj1 (Hin x)) as [Hx1 Hx2]; [apply elem_of_list_here|]. destruct (proj1 (Hin y)) as [Hy1 Hy2]; [by apply elem_of_list_further|].
    assert (Hcs : exists c s, two_halves c s /\ c ∈ l /\ s ∈ l /\ (x = c \/ x = s) /\ s_id c = id).
    { destruct (Ho x y) as [?|[?|?]]; [done|done|congruence|congruence| |]; [by exists x, y; eauto 10|by exists y, x; eauto 10]. }
    destruct Hcs as (c & s & Hcs & Hc & Hs & Hx & Hid). exists c, s. repeat (split; [done|]).
    destruct (two_reports c s k x Hcs Hx) as [[A _]|[_ A]]; [| |done].
    + apply Forall_forall. intros z Hz. destruct (proj1 (Hin z)) as [Hz1 Hz2]; [by apply elem_of_list_further|].
      destruct (Ho z c) as [?|[Hzc|Hzc]]; [done|done|congruence|by left| |].
      * exfalso. by apply (client_not_server _ _ Hcs), (server_is _ _ Hzc).
      * destruct (Ho z s) as [?|[Hzs|Hzs]]; [done|done| |by right| |].
        -- destruct Hcs as (<- & _). congruence.
        -- exfalso. apply (client_not_server _ _ Hzs), (server_is _ _ Hzc).
        -- exfalso. apply (client_not_server _ _ Hzs), (server_is _ _ Hcs).
    + rewrite Forall_forall in A. destruct Hyx. by apply A.
Qed.

Lemma both_unique l c s c' s' : orderly l -> two_halves c s -> two_halves c' s' -> c ∈ l -> s ∈ l -> c' ∈ l -> s' ∈ l -> s_id c = s_id c' -> c = c' /\ s = s'.
Proof.
  intros Ho H H' Hc Hs Hc' Hs' E. assert (Es : s_id s = s_id s') by (destruct H as (? & _), H' as (? & _); congruence). split.
  - destruct (Ho c c') as [?|[X|X]]; try done; exfalso; [by apply (client_not_server _ _ H'), (server_is _ _ X)|by apply (client_not_server _ _ H), (server_is _ _ X)].
  - destruct (Ho s s') as [?|[X|X]]; try done; exfalso; [by apply (client_not_server _ _ X), (server_is _ _ H)|by apply (client_not_server _ _ X), (server_is _ _ H')].
Qed.

(* ---------- the whole trace ---------- *)

Lemma held_merged id t a : held id (merged_spans t a) = foldl (held_next id) None (reports a).
Proof.
  unfold merged_spans. destruct (new_tree_ok 0 t) as [N1 N2]. rewrite held_add_all; [|intros m; reflexivity|done|done].
  unfold reports. rewrite map_map. done.
Qed.

Lemma merged_descending t a : descending (ids (merged_spans t a)).
Proof. by destruct (tree_contents map_to_list 0 t (map (fun a => (a.1.2, a.2)) a) map_order_list) as (H & _). Qed.

Definition orel (x y : option span) : Prop :=
  match x, y with None, None => True | Some a, Some b => same_but_time a b | _, _ => False end.

Lemma held_same id t a b : orderly (reports a) -> same_reports (reports a) (reports b) ->
  orel (held id (merged_spans t a)) (held id (merged_spans t b)).
Proof.
  intros Ho Hs. rewrite !held_merged, !held_list. set (la := reports a) in *. set (lb := reports b) in *. clearbody la lb.
  assert (Hob : orderly lb) by (intros x y Hx Hy; apply Ho; by apply Hs).
  assert (Hf : forall x, x ∈ List.filter (fun s => s_id s =? id) la <-> x ∈ List.filter (fun s => s_id s =? id) lb) by (intros x; by rewrite !in_filter, (Hs x)).
  destruct (List.filter _ la) as [|x k] eqn:Ea; destruct (List.filter _ lb) as [|y m] eqn:Eb.
  - done.
  - exfalso. apply (elem_of_nil y), Hf, elem_of_list_here.
  - exfalso. apply (elem_of_nil x), Hf, elem_of_list_here.
  - cbn [orel].
    destruct (reports_of_id la id x k Ho Ea) as [[A1 ->]|(c & s & H & Hc & Hsl & Hx & Hid & ->)], (reports_of_id lb id y m Hob Eb) as [[B1 ->]|(c' & s' & H' & Hc' & Hsl' & Hy & Hid' & ->)].
    + left. assert (Hy : y ∈ x :: k) by (apply Hf, elem_of_list_here). rewrite Forall_forall in A1. apply elem_of_cons in Hy as [->|Hy]; [done|]. symmetry. by apply A1.
    + exfalso. assert (G : forall z, z ∈ la -> s_id z = id -> z = x).
      { intros z Hz1 Hz2. assert (Hz : z ∈ x :: k) by (rewrite <- Ea; by apply in_filter). rewrite Forall_forall in A1. apply elem_of_cons in Hz as [->|Hz]; [done|by apply A1]. }
      apply (halves_differ c' s' H'). rewrite (G c'), (G s'); [done|by apply Hs|by destruct H' as (<- & _)|by apply Hs|done].
    + exfalso. assert (G : forall z, z ∈ lb -> s_id z = id -> z = y).
      { intros z Hz1 Hz2. assert (Hz : z ∈ y :: m) by (rewrite <- Eb; by apply in_filter). rewrite Forall_forall in B1. apply elem_of_cons in Hz as [->|Hz]; [done|by apply B1]. }
      apply (halves_differ c s H). rewrite (G c), (G s); [done|by apply Hs|by destruct H as (<- & _)|by apply Hs|done].
    + destruct (both_unique la c s c' s') as [<- <-]; [done|done|done|done|done|by apply Hs|by apply Hs|congruence|].
      apply both_same; [done| |].
      * destruct Hx as [->| ->]; [by left|by right].
      * destruct Hy as [->| ->]; [by left|by right].
Qed.

Lemma same_trace t a b : orderly (reports a) -> same_reports (reports a) (reports b) -> Forall2 same_but_time (merged_spans t a) (merged_spans t b).
Proof.
  intros Ho Hs. pose proof (fun id => held_same id t a b Ho Hs) as H. pose proof (merged_descending t a) as Ha. pose proof (merged_descending t b) as Hb.
  set (l := merged_spans t a) in *. set (m := merged_spans t b) in *. clearbody l m. clear -H Ha Hb.
  revert m Hb H. induction l as [|x l IH]; intros m Hb H.
  - destruct m as [|y m]; [constructor|]. specialize (H (s_id y)). cbn in H. by rewrite Z.eqb_refl in H.
  - destruct m as [|y m]; [specialize (H (s_id x)); cbn in H; by rewrite Z.eqb_refl in H|].
    apply StronglySorted_inv in Ha as [Ha Hx]. apply StronglySorted_inv in Hb as [Hb Hy].
    change (Forall (fun b => b < s_id x) (ids l)) in Hx. change (Forall (fun b => b < s_id y) (ids m)) in Hy.
    assert (N : forall z k, Forall (fun b => b < z) (ids k) -> forall i, z <= i -> held i k = None).
    { clear. intros z k Hk i Hi. induction k as [|w k IHk]; [done|]. cbn [ids map] in Hk. apply Forall_cons in Hk as [Hw Hk].
      cbn [held List.find]. rewrite (proj2 (Z.eqb_neq _ _)) by lia. by apply IHk. }
    assert (Hxy : s_id x = s_id y).
    { destruct (Z.lt_trichotomy (s_id x) (s_id y)) as [E|[E|E]]; [|done|]; exfalso.
      - specialize (H (s_id y)). cbn [held List.find] in H. rewrite Z.eqb_refl, (proj2 (Z.eqb_neq _ _)) in H by lia.
        change (List.find (fun s => s_id s =? s_id y) l) with (held (s_id y) l) in H. rewrite (N _ _ Hx) in H by lia. done.
      - specialize (H (s_id x)). cbn [held List.find] in H. rewrite Z.eqb_refl, (proj2 (Z.eqb_neq _ _)) in H by lia.
        change (List.find (fun s => s_id s =? s_id x) m) with (held (s_id x) m) in H. rewrite (N _ _ Hy) in H by lia. done. }
    constructor.
    + specialize (H (s_id x)). cbn [held List.find] in H. by rewrite <- Hxy, !Z.eqb_refl in H.
    + apply IH; [done|done|]. intros id. destruct (decide (s_id x <= id)) as [Hi|Hi].
      * rewrite (N _ _ Hx), (N _ _ Hy) by lia. done.
      * specialize (H id). cbn [held List.find] in H. rewrite !(proj2 (Z.eqb_neq _ _)) in H by lia. done.
Qed.

(* ---------- emission ---------- *)

Definition retimes (s s' : span) : Prop := exists start dur, s' = retimed s start dur.
Lemma retimes_ids l l' : Forall2 retimes l l' -> Forall2 same_ids l l'.
Proof. intros H. eapply Forall2_impl; [exact H|]. intros a b (st & du & ->). by split. Qed.
Lemma same_ids_sym l l' : Forall2 same_ids l l' -> Forall2 same_ids l' l.
Proof. intros H. apply Forall2_flip. eapply Forall2_impl; [exact H|]. intros a b [E1 E2]. by split. Qed.

Lemma descends_perm l m x p : l ≡ₚ m -> descends l x p -> descends m x p.
Proof.
  intros Hp. revert x. induction p as [|c p IH]; intros x Hd; [done|]. destruct Hd as [(H1 & H2) Hd]. split; [|by apply IH].
  split; [by rewrite <- Hp|done].
Qed.

Lemma same_emission (all1 : list span) root1 (out1 all2 : list span) root2 (out2 m1 m2 : list span) :
  NoDup (ids all1) -> ConnectSpec.one_root all1 root1 -> Forall2 retimes all1 out1 ->
  (forall path i, descends all1 root1 path -> all1 !! i = Some (List.last path root1) ->
     out1 !! i = Some (retimed (List.last path root1) (corrected_start root1 path) (own_duration (List.last path root1)))) ->
  root2 ∈ all2 ->
  (forall path i, descends all2 root2 path -> all2 !! i = Some (List.last path root2) ->
     out2 !! i = Some (retimed (List.last path root2) (corrected_start root2 path) (own_duration (List.last path root2)))) ->
  all1 ≡ₚ m1 -> all2 ≡ₚ m2 -> Forall2 same_but_time m1 m2 -> same_but_time root1 root2 ->
  forall r x, ConnectSpec.one_root out1 r -> x ∈ out1 -> connected out1 r x -> x ∈ out2.
Proof.
  intros Hn Hr HF H1 Hr2 H2 Hp1 Hp2 Hs Hrr r x Hor Hx (q & Hq & Eq).
  destruct (one_root_transfer all1 out1 root1 Hn (retimes_ids _ _ HF) Hr) as (r' & Hrr' & Hor').
  assert (r' = r) as -> by (apply Hor; by destruct Hor').
  destruct (descends_transfer out1 all1 r q root1 (same_ids_sym _ _ (retimes_ids _ _ HF)) Hq) as (q' & Hq' & Hl); [by destruct Hrr'|].
  rewrite Eq in Hl. apply elem_of_list_lookup in Hx as [i Hi]. destruct (Forall2_lookup_r _ _ _ _ _ HF Hi) as (s & Hsi & st & du & Ex).
  assert (Hroot1 : root1 ∈ all1) by (by destruct Hr as [[? _] _]).
  assert (Es : List.last q' root1 = s).
  { apply (same_id all1 Hn); [by apply descends_in|by eapply elem_of_list_lookup_2|]. destruct Hl as [E _]. rewrite E, Ex. done. }
  rewrite <- Es in Hsi. rewrite (H1 q' i Hq' Hsi) in Hi. injection Hi as <-.
  destruct (rel_descends m1 m2 q' Hs root1 root2 Hrr (descends_perm _ _ _ _ Hp1 Hq')) as (l' & Hl' & Hll & Hlast).
  symmetry in Hp2. apply (descends_perm _ _ _ _ Hp2) in Hl'.
  assert (Hin : List.last l' root2 ∈ all2) by (by apply descends_in). apply elem_of_list_lookup in Hin as [j Hj].
  apply elem_of_list_lookup. exists j. rewrite (H2 l' j Hl' Hj). f_equal. destruct (rel_own _ _ Hlast) as (_ & _ & _ & F4 & _ & F6).
  destruct (rel_own _ _ Hrr) as (_ & _ & E3 & _ & E5 & _). rewrite F6, F4. f_equal. unfold corrected_start. by rewrite E5, E3, (rel_path _ _ Hll).
Qed.

Lemma candidate_rel s1 s2 c : Forall2 same_but_time s1 s2 -> root_candidate s1 c -> exists c', root_candidate s2 c' /\ same_but_time c c'.
Proof.
  intros Hs [Hc H]. apply elem_of_list_lookup in Hc as [i Hi]. destruct (Forall2_lookup_l _ _ _ _ _ Hs Hi) as (c' & Hi' & Hr). exists c'. split; [|done].
  destruct (rel_own _ _ Hr) as (E1 & E2 & _). split; [by eapply elem_of_list_lookup_2|]. by rewrite <- E1, <- E2, <- (rel_ids _ _ Hs).
Qed.

Lemma same_but_time_sym l m : Forall2 same_but_time l m -> Forall2 same_but_time m l.
Proof. intros H. apply Forall2_flip. eapply Forall2_impl; [exact H|]. intros a b Hab. by apply rel_sym. Qed.

(** Two candidates on one side are two candidates on the other. *)
Lemma two_candidates s1 s2 c c' : NoDup (ids s1) -> Forall2 same_but_time s1 s2 -> root_candidate s1 c -> root_candidate s1 c' -> c <> c' ->
  exists d d', root_candidate s2 d /\ root_candidate s2 d' /\ d <> d'.
Proof.
  intros Hn Hs Hc Hc' Hne. destruct (candidate_rel _ _ _ Hs Hc) as (d & Hd & R). destruct (candidate_rel _ _ _ Hs Hc') as (d' & Hd' & R').
  exists d, d'. split; [done|]. split; [done|]. intros ->. apply Hne. destruct (rel_own _ _ R) as (E & _). destruct (rel_own _ _ R') as (E' & _).
  apply (same_id s1 Hn); [by destruct Hc|by destruct Hc'|congruence].
Qed.

Lemma injected_is_root t spans f all root : NoDup (ids spans) -> injected t spans f -> all ≡ₚ f :: spans -> root_candidate all root ->
  root = f /\ t ∉ ids spans /\ NoDup (ids all).
Proof.
  intros Hn (_ & _ & Hgp & Hgn & c & c' & Hc & Hc' & Hcc & Hpar) Hall Hr.
  apply (root_candidate_perm _ _ _ Hall) in Hr.
  assert (Hl : (1 < length (roots spans))%nat) by (by apply (many_roots _ c c')).
  apply (candidates_after [] spans f (s_id f)) in Hr; [|done..]. destruct Hr as [-> Hr]. split; [done|]. cbn [app] in Hr. split.
  - destruct Hr as [Hr|Hr]; rewrite Hgp in Hr; [by rewrite Hr|done].
  - assert (Hpi : ids all ≡ₚ s_id f :: ids spans) by (change (s_id f :: ids spans) with (ids (f :: spans)); by apply Permutation_map).
    rewrite Hpi. by apply NoDup_cons.
Qed.

Lemma root_of_out all root out r : NoDup (ids all) -> ConnectSpec.one_root all root -> Forall2 retimes all out -> ConnectSpec.one_root out r -> s_id r = s_id root.
Proof.
  intros Hn Hr HF Hor. destruct (one_root_transfer all out root Hn (retimes_ids _ _ HF) Hr) as (r' & [E _] & Hor').
  assert (r' = r) as -> by (apply Hor; by destruct Hor'). done.
Qed.

(** The root is one of the spans. *)
Lemma own_root_same t s1 s2 out1 out2 r x : NoDup (ids s1) -> Forall2 same_but_time s1 s2 -> emission t s1 out1 -> emission t s2 out2 ->
  ConnectSpec.one_root out1 r -> s_id r ∈ ids s1 -> x ∈ out1 -> connected out1 r x -> x ∈ out2.
Proof.
  intros Hn Hs (all1 & root1 & Ha1 & Hc1 & Hu1 & HF1 & Hp1 & _) (all2 & root2 & Ha2 & Hc2 & Hu2 & _ & Hp2 & _) Hor Hin.
  destruct Ha1 as [->|(f & Hf & Ha1)].
  - destruct Ha2 as [->|(f & Hf & Ha2)].
    + destruct (candidate_rel _ _ _ Hs Hc1) as (root' & Hc' & Hr'). rewrite (Hu2 _ Hc') in Hr'.
      revert r x Hor Hin. intros r x Hor _. apply (same_emission s1 root1 out1 s2 root2 out2 s1 s2); try done. by destruct Hc2.
    + exfalso. assert (Hn2 : NoDup (ids s2)) by (by rewrite <- (rel_ids _ _ Hs)).
      destruct Hf as (_ & _ & _ & _ & c & c' & Hc & Hc' & Hcc & _).
      destruct (two_candidates s2 s1 c c' Hn2 (same_but_time_sym _ _ Hs) Hc Hc' Hcc) as (d & d' & Hd & Hd' & Hne). apply Hne. by rewrite (Hu1 d), (Hu1 d').
  - exfalso. destruct (injected_is_root _ _ _ _ _ Hn Hf Ha1 Hc1) as (-> & _ & Hna).
    rewrite (root_of_out all1 f out1 r) in Hin; [|done|by split|done|done]. by destruct Hf as (_ & _ & _ & ? & _).
Qed.

Lemma hull_unique l m a b c d : hull l a b -> hull m c d -> (forall s, s ∈ l <-> s ∈ m) -> a = c /\ b = d.
Proof.
  intros ((x & Hx & <-) & (y & Hy & <-) & H) ((x' & Hx' & <-) & (y' & Hy' & <-) & H') E.
  pose proof (H x') as A1. pose proof (H y') as A2. pose proof (H' x) as A3. pose proof (H' y) as A4.
  destruct A1 as [A1 _]; [by apply E|]. destruct A2 as [_ A2]; [by apply E|]. destruct A3 as [A3 _]; [by apply E|]. destruct A4 as [_ A4]; [by apply E|]. lia.
Qed.

(** The candidates are the same. *)
Lemma any_root_same t s1 s2 out1 out2 r x : NoDup (ids s1) -> Forall2 same_but_time s1 s2 ->
  (forall c, root_candidate s1 c -> c ∈ s2) -> (forall c, root_candidate s2 c -> c ∈ s1) -> emission t s1 out1 -> emission t s2 out2 ->
  ConnectSpec.one_root out1 r -> x ∈ out1 -> connected out1 r x -> x ∈ out2.
Proof.
  intros Hn Hs Hc12 Hc21 He1 He2 Hor. pose proof (rel_ids _ _ Hs) as Hids. assert (Hn2 : NoDup (ids s2)) by (by rewrite <- Hids).
  destruct (decide (s_id r ∈ ids s1)) as [Hin|Hin]; [by apply (own_root_same t s1 s2)|].
  destruct He1 as (all1 & root1 & Ha1 & Hc1 & Hu1 & HF1 & Hp1 & _), He2 as (all2 & root2 & Ha2 & Hc2 & Hu2 & _ & Hp2 & _).
  destruct Ha1 as [->|(f & Hf & Ha1)].
  { exfalso. apply Hin. rewrite (root_of_out s1 root1 out1 r) by done. apply elem_of_list_fmap_1. by destruct Hc1. }
  destruct Ha2 as [->|(g & Hg & Ha2)].
  { exfalso. destruct Hf as (_ & _ & _ & _ & c & c' & Hc & Hc' & Hcc & _).
    destruct (two_candidates s1 s2 c c' Hn Hs Hc Hc' Hcc) as (d & d' & Hd & Hd' & Hne). apply Hne. by rewrite (Hu2 d), (Hu2 d'). }
  destruct (injected_is_root _ _ _ _ _ Hn Hf Ha1 Hc1) as (-> & _ & Hna). destruct (injected_is_root _ _ _ _ _ Hn2 Hg Ha2 Hc2) as (-> & _ & _).
  assert (Hcc : forall c, root_candidate s1 c <-> root_candidate s2 c).
  { intros c. split; intros Hc.
    - split; [by apply Hc12|]. destruct Hc as [_ Hc]. by rewrite <- Hids.
    - split; [by apply Hc21|]. destruct Hc as [_ Hc]. by rewrite Hids. }
  assert (f = g) as <-.
  { destruct Hf as ((f1 & l1 & cs1 & Ef & Hh1 & Hm1) & _ & _ & _ & c & _ & Hc & _ & _ & Hpar).
    destruct Hg as ((f2 & l2 & cs2 & Eg & Hh2 & Hm2) & _ & _ & _ & _ & _ & _ & _ & _ & Hpar').
    destruct (hull_unique _ _ _ _ _ _ Hh1 Hh2) as [-> ->]; [intros s; by rewrite Hm1, Hm2|]. rewrite Ef, Eg. f_equal.
    rewrite <- (Hpar c Hc), <- (Hpar' c); [done|by apply Hcc]. }
  apply (same_emission all1 f out1 all2 f out2 (f :: s1) (f :: s2)); try done; [by destruct Hc2| |by left]. constructor; [by left|done].
Qed.

(* ---------- from reports to candidates ---------- *)

Lemma merged_held t a x : x ∈ merged_spans t a -> held (s_id x) (merged_spans t a) = Some x.
Proof. intros H. apply held_In; [apply merged_descending|done]. Qed.

Lemma merged_report_ids t a id : id ∈ ids (merged_spans t a) <-> id ∈ ids (reports a).
Proof.
  rewrite merged_ids. unfold reports, ids. by rewrite map_map.
Qed.

Lemma candidate_alone t a c : orderly (reports a) -> 0 ∉ ids (reports a) -> Forall (fun x => alone (reports a) x \/ attached (reports a) x) (reports a) ->
  root_candidate (merged_spans t a) c -> c ∈ reports a /\ alone (reports a) c.
Proof.
  intros Ho H0 Hall [Hc Hr]. pose proof (merged_held _ _ _ Hc) as Hh. rewrite held_merged, held_list in Hh.
  set (id := s_id c) in *. assert (Hr' : s_parent c = id \/ s_parent c ∉ ids (reports a)) by (destruct Hr as [?|Hr]; [by left|right; by rewrite merged_report_ids in Hr]).
  clear Hr. destruct (List.filter _ (reports a)) as [|x k] eqn:E; [done|]. injection Hh as Hh.
  assert (Hx : x ∈ reports a /\ s_id x = id) by (apply in_filter; rewrite E; apply elem_of_list_here). destruct Hx as [Hx Hid].
  destruct (reports_of_id _ _ _ _ Ho E) as [[A1 A2]|(c' & s & H & Hc' & Hs & Hx' & Hid' & A)].
  - rewrite A2 in Hh. subst x. split; [done|]. intros y Hy Ey. assert (Hyk : y ∈ c :: k) by (rewrite <- E; by apply in_filter).
    apply elem_of_cons in Hyk as [->|Hyk]; [done|]. rewrite Forall_forall in A1. by apply A1.
  - exfalso. rewrite Forall_forall in Hall. destruct (Hall x Hx) as [Ha|(y & Hy & Ey & Hp & Hne)].
    + apply (halves_differ c' s H). assert (s_id s = id) by (destruct H as (<- & _); done). rewrite (Ha c'), (Ha s); [done|done|congruence|done|congruence].
    + assert (Hy0 : s_parent y <> 0) by (intros E0; by rewrite E0 in Hp).
      assert (Hcs : y = c' \/ y = s).
      { assert (s_id s = id) by (destruct H as (<- & _); done).
        destruct (Ho y c') as [?|[X|X]]; [done|done|congruence|by left|exfalso; by apply (client_not_server _ _ H), (server_is _ _ X)|].
        destruct (Ho y s) as [?|[Z|Z]]; [done|done|congruence|by right|exfalso; apply (client_not_server _ _ Z), (server_is _ _ X)|].
        exfalso. apply (client_not_server _ _ Z), (server_is _ _ H). }
      assert (Ep : s_parent c = s_parent y).
      { rewrite <- Hh, A. unfold both. cbn [s_parent]. destruct H as (_ & _ & Hpar & _). destruct (Z.eqb_spec (s_parent s) 0), Hcs as [->| ->]; lia. }
      rewrite Ep in Hr'. destruct Hr' as [Hr'|Hr']; [congruence|done].
Qed.

Lemma alone_held t a c : c ∈ reports a -> alone (reports a) c -> c ∈ merged_spans t a.
Proof.
  intros Hc Ha. assert (Hh : held (s_id c) (merged_spans t a) = Some c); [|apply held_In in Hh; [by destruct Hh|apply merged_descending]].
  rewrite held_merged, held_list. assert (Hf : forall y, y ∈ List.filter (fun s => s_id s =? s_id c) (reports a) -> y = c) by (intros y Hy; apply in_filter in Hy as [? ?]; by apply Ha).
  assert (Hin : c ∈ List.filter (fun s => s_id s =? s_id c) (reports a)) by (by apply in_filter).
  destruct (List.filter _ (reports a)) as [|x k]; [by apply elem_of_nil in Hin|]. f_equal. rewrite (Hf x) by apply elem_of_list_here.
  assert (Hk : Forall (fun y => y = c) k) by (apply Forall_forall; intros y Hy; apply Hf; by apply elem_of_list_further).
  clear -Hk. induction Hk as [|y k -> Hk IH]; [done|]. unfold updates in *. cbn [foldl]. by rewrite updated_self.
Qed.

(* ---------- whether a trace is emitted ---------- *)

Lemma emission_exists t a b : orderly (reports a) -> same_reports (reports a) (reports b) ->
  Forall (fun s => s_trace s = t) (merged_spans t b) -> Forall (fun s => int64_ok (s_ts s)) (merged_spans t b) ->
  (exists out, emission t (merged_spans t a) out) -> exists out, emission t (merged_spans t b) out.
Proof.
  intros Ho Hs Ht Hok (out & all & root & Hall & Hc & Hu & _). pose proof (same_trace t a b Ho Hs) as HF. pose proof (rel_ids _ _ HF) as Hids.
  pose proof (merged_NoDup t a) as Hna. pose proof (merged_NoDup t b) as Hnb.
  destruct Hall as [->|(f & Hf & Hall)].
  - destruct (candidate_rel _ _ _ HF Hc) as (root' & Hc' & _).
    assert (Hu' : forall r, root_candidate (merged_spans t b) r -> r = root').
    { intros r Hr. destruct (decide (r = root')) as [|Hne]; [done|].
      destruct (two_candidates _ _ r root' Hnb (same_but_time_sym _ _ HF) Hr Hc' Hne) as (d & d' & Hd & Hd' & Hdd). destruct Hdd. by rewrite (Hu d), (Hu d'). }
    destruct (unique_root_index _ _ Hnb Hc' Hu') as (i & Hi & _).
    destruct (emission_of t (merged_spans t b) (merged_spans t b) i (length (merged_spans t b))) as (out' & _ & _ & He); try done; [by left|]. by exists out'.
  - destruct (injected_is_root _ _ _ _ _ Hna Hf Hall Hc) as (-> & HT & _).
    destruct Hf as (_ & _ & _ & _ & c & c' & Hcc & Hcc' & Hne & Hpar).
    destruct (two_candidates _ _ c c' Hna HF Hcc Hcc' Hne) as (d & d' & Hd & Hd' & Hdd).
    set (tr := add_all map_to_list (map (fun a => (a.1.2, a.2)) b) (new_tree 0 t)).
    assert (Hd0 : descending (ids (t_spans tr))) by apply merged_descending.
    assert (Hl : (1 < length (roots (t_spans tr)))%nat) by (by apply (many_roots _ d d')).
    assert (HP : forall s, root_candidate (t_spans tr) s -> s_parent s = s_id f).
    { intros s Hs0. destruct (candidate_rel _ _ _ (same_but_time_sym _ _ HF) Hs0) as (s' & Hs' & R). destruct (rel_own _ _ R) as (_ & E & _). rewrite E. by apply Hpar. }
    destruct (injected_root map_to_list 0 tr t (s_id f) map_order_list Hd0 Ht Hl HP) as (tr' & rs & first & last & g & EF & _ & _ & _ & _ & _ & Hin & _).
    destruct Hin as (i & -> & _); [change (t ∉ ids (merged_spans t b)); by rewrite <- Hids|].
    pose proof (finish_decide map_to_list 0 t tr map_order_list Hd0 Ht Hok) as Hfd. rewrite EF in Hfd. destruct Hfd as (out' & _ & _ & He). by exists out'.
Qed.
