(** Proofs for C97: slices in memory behave like the lists of [TreeModel] and [FinishModel]. *)
From Coq Require Import Sorted.
From Verif Require Import Base IdModel SpanModel TreeModel TreeSpec TreeProofs FinishModel FinishSpec SliceModel SliceSpec.

(* ---------- memory ---------- *)

Definition ok_slice (mem : memory) (sl : slice) : Prop :=
  match sl with None => True | Some (a, n) => exists arr, mem !! a = Some arr /\ (n <= length arr)%nat end.
(** From [mem], [sl] to [mem'], [sl']: other arrays are as before; the slice is where it was, or in a new array. *)
Definition moved (mem : memory) (sl : slice) (mem' : memory) (sl' : slice) : Prop :=
  ok_slice mem' sl' /\ (length mem <= length mem')%nat /\
  (forall b arr, (forall n, sl <> Some (b, n)) -> mem !! b = Some arr -> mem' !! b = Some arr) /\
  (forall a n, sl' = Some (a, n) -> (exists m, sl = Some (a, m)) \/ (length mem <= a)%nat).

Lemma moved_refl mem sl : ok_slice mem sl -> moved mem sl mem sl.
Proof. intros H. split; [done|]. split; [done|]. split; [done|]. intros a n ->. left. by exists n. Qed.

Lemma moved_trans m1 s1 m2 s2 m3 s3 : moved m1 s1 m2 s2 -> moved m2 s2 m3 s3 -> moved m1 s1 m3 s3.
Proof.
  intros (A1 & A2 & A3 & A4) (B1 & B2 & B3 & B4). split; [done|]. split; [lia|]. split.
  - intros b arr Hb E. apply B3; [|by apply A3]. intros n Hs2. destruct (A4 b n Hs2) as [[m Hm]|Hm]; [by apply (Hb m)|].
    apply lookup_lt_Some in E. lia.
  - intros a n Hs3. destruct (B4 a n Hs3) as [[m Hm]|Hm]; [|right; lia]. destruct (A4 a m Hm) as [H|H]; [by left|by right].
Qed.

Lemma cells_some mem a n arr : mem !! a = Some arr -> cells mem (Some (a, n)) = take n arr.
Proof. intros E. cbn [cells]. by rewrite (list_lookup_total_correct _ _ _ E). Qed.

Lemma cells_length mem a n : ok_slice mem (Some (a, n)) -> length (cells mem (Some (a, n))) = n.
Proof. intros (arr & E & Hn). rewrite (cells_some _ _ _ _ E), take_length. lia. Qed.

Lemma load_cells mem a n i : ok_slice mem (Some (a, n)) -> (i < n)%nat -> load mem (a, i) = cells mem (Some (a, n)) !! i.
Proof. intros (arr & E & Hn) Hi. rewrite (cells_some _ _ _ _ E). unfold load. cbn [fst snd]. rewrite E. cbn. by rewrite lookup_take. Qed.

Lemma store_spec mem a n i s : ok_slice mem (Some (a, n)) -> (i < n)%nat ->
  exists mem', store mem (a, i) s = Some mem' /\ cells mem' (Some (a, n)) = <[i := s]> (cells mem (Some (a, n))) /\ moved mem (Some (a, n)) mem' (Some (a, n)).
Proof.
  intros Hok Hi. pose proof (load_cells mem a n i Hok Hi) as HL. pose proof (cells_length mem a n Hok) as Hlen.
  destruct Hok as (arr & E & Hn). unfold store. rewrite HL.
  destruct (lookup_lt_is_Some_2 (cells mem (Some (a, n))) i) as [x Hx]; [by rewrite Hlen|]. rewrite Hx. cbn [mbind option_bind fst snd].
  eexists. split; [reflexivity|].
  assert (E' : alter (fun arr => <[i := s]> arr) a mem !! a = Some (<[i := s]> arr)) by (by rewrite list_lookup_alter, E).
  split.
  - rewrite (cells_some _ _ _ _ E'), (cells_some _ _ _ _ E). by rewrite take_insert_lt.
  - split; [exists (<[i := s]> arr); split; [done|by rewrite insert_length]|]. split; [by rewrite alter_length|]. split.
    + intros b arr' Hb Eb. rewrite list_lookup_alter_ne; [done|]. intros <-. by apply (Hb n).
    + intros a' n' [= <- <-]. left. by exists n.
Qed.

Lemma append_spec extra mem sl : ok_slice mem sl ->
  exists mem' a, go_append extra mem sl = Some (mem', (a, S (length (cells mem sl)))) /\ 
    cells mem' (Some (a, S (length (cells mem sl)))) = cells mem sl ++ [zero_span] /\ moved mem sl mem' (Some (a, S (length (cells mem sl)))).
Proof.
  intros Hok. set (c := cells mem sl). unfold go_append. fold c.
  assert (Hmove : let mem' := mem ++ [c ++ replicate (S extra) zero_span] in
    cells mem' (Some (length mem, S (length c))) = c ++ [zero_span] /\ moved mem sl mem' (Some (length mem, S (length c)))).
  { intros mem'. assert (E : mem' !! length mem = Some (c ++ replicate (S extra) zero_span)) by (unfold mem'; by rewrite lookup_app_r, Nat.sub_diag).
    split.
    - rewrite (cells_some _ _ _ _ E). rewrite take_app_ge by lia. replace (S (length c) - length c)%nat with 1%nat by lia. cbn [replicate take]. by rewrite take_0.
    - split; [exists (c ++ replicate (S extra) zero_span); split; [done|]; rewrite app_length, replicate_length; lia|].
      split; [unfold mem'; rewrite app_length; cbn; lia|]. split.
      + intros b arr _ Eb. unfold mem'. by apply lookup_app_l_Some.
      + intros a' n' [= <- <-]. by right. }
  destruct sl as [[a n]|].
  - pose proof (cells_length _ _ _ Hok) as Hlen. fold c in Hlen. destruct Hok as (arr & E & Hn). rewrite E. cbn [mbind option_bind].
    destruct (Nat.ltb_spec n (length arr)) as [Hlt|Hge].
    + eexists _, a. rewrite Hlen. split; [reflexivity|].
      assert (E' : alter (fun arr => <[n := zero_span]> arr) a mem !! a = Some (<[n := zero_span]> arr)) by (by rewrite list_lookup_alter, E).
      split.
      * rewrite (cells_some _ _ _ _ E'). unfold c. rewrite (cells_some _ _ _ _ E).
        assert (Hz : <[n:=zero_span]> arr !! n = Some zero_span) by (by apply list_lookup_insert).
        rewrite (take_S_r _ _ _ Hz). by rewrite take_insert.
      * split; [exists (<[n := zero_span]> arr); split; [done|rewrite insert_length; lia]|]. split; [by rewrite alter_length|]. split.
        -- intros b arr' Hb Eb. rewrite list_lookup_alter_ne; [done|]. intros <-. by apply (Hb n).
        -- intros a' n' [= <- <-]. left. by exists n.
    + eexists _, (length mem). split; [reflexivity|]. exact Hmove.
  - eexists _, (length mem). split; [reflexivity|]. exact Hmove.
Qed.

Lemma copy_spec mem a n idx : ok_slice mem (Some (a, n)) -> (S idx <= n)%nat ->
  exists mem', go_copy mem a n idx = Some mem' /\
    cells mem' (Some (a, n)) = take (S idx) (cells mem (Some (a, n))) ++ take (n - S idx) (drop idx (cells mem (Some (a, n)))) /\
    moved mem (Some (a, n)) mem' (Some (a, n)).
Proof.
  intros (arr & E & Hn) Hi. unfold go_copy. rewrite E. cbn [mbind option_bind]. rewrite (leb_correct _ _ Hi), (leb_correct _ _ Hn). cbn [andb].
  eexists. split; [reflexivity|]. set (f := fun arr : list span => _).
  assert (E' : alter f a mem !! a = Some (f arr)) by (by rewrite list_lookup_alter, E).
  split.
  - rewrite (cells_some _ _ _ _ E'), (cells_some _ _ _ _ E). unfold f. rewrite take_take, Nat.min_l by lia.
    rewrite app_assoc, take_app_alt; [|rewrite app_length, !take_length, drop_length; lia]. f_equal.
    apply list_eq. intros i. destruct (decide (i < n - S idx)%nat) as [H|H].
    + rewrite !lookup_take by done. rewrite !lookup_drop. rewrite lookup_take by lia. done.
    + rewrite !lookup_take_ge by lia. done.
  - split.
    + exists (f arr). split; [done|]. unfold f. rewrite !app_length, !take_length, !drop_length. lia.
    + split; [by rewrite alter_length|]. split.
      * intros b arr' Hb Eb. rewrite list_lookup_alter_ne; [done|]. intros <-. by apply (Hb n).
      * intros a' n' [= <- <-]. left. by exists n.
Qed.

Lemma position_bound id spans : (position id spans <= length spans)%nat.
Proof.
  unfold position, search. assert (H : forall k f i j, (i <= j)%nat -> (search_loop k f i j <= j)%nat); [|apply H; lia].
  induction k as [|k IH]; intros f i j Hij; cbn [search_loop]; [done|]. destruct (Nat.ltb_spec i j) as [Hlt|]; [|done].
  assert (Hh : (i <= (i + j) / 2 < j)%nat) by (split; [apply Nat.div_le_lower_bound; lia|apply Nat.div_lt_upper_bound; lia]).
  destruct (f ((i + j) / 2)%nat); [|apply IH; lia]. pose proof (IH f i ((i + j) / 2)%nat). lia.
Qed.

Lemma slice_append_spec extra mem sl s : ok_slice mem sl ->
  exists mem' sl', slice_append extra mem sl s = Some (mem', sl') /\ cells mem' sl' = append_span s (cells mem sl) /\ moved mem sl mem' sl'.
Proof.
  intros Hok. unfold slice_append, append_span. set (c := cells mem sl). set (idx := position (s_id s) c).
  assert (Hi : (idx <= length c)%nat) by apply position_bound.
  destruct (append_spec extra mem sl Hok) as (m1 & a & -> & C1 & M1). fold c in C1, M1 |- *. cbn [mbind option_bind].
  destruct (copy_spec m1 a (S (length c)) idx) as (m2 & -> & C2 & M2); [by destruct M1|lia|]. cbn [mbind option_bind].
  destruct (store_spec m2 a (S (length c)) idx s) as (m3 & -> & C3 & M3); [by destruct M2|lia|]. cbn [mbind option_bind].
  eexists _, _. split; [reflexivity|]. split; [|by eapply moved_trans; [exact M1|eapply moved_trans; [exact M2|exact M3]]].
  rewrite C3, C2, C1. replace (S (length c) - S idx)%nat with (length c - idx)%nat by lia.
  clear -Hi. clearbody idx c. apply list_eq. intros i.
  destruct (Nat.lt_trichotomy i idx) as [H|[->|H]].
  - rewrite list_lookup_insert_ne by lia. rewrite lookup_app_l by (rewrite take_length, app_length; cbn [length]; lia). rewrite lookup_take by lia.
    rewrite (lookup_app_l c) by lia. rewrite lookup_app_l by (rewrite take_length; lia). by rewrite lookup_take by lia.
  - rewrite list_lookup_insert by (rewrite app_length, !take_length, drop_length, !app_length; cbn [length]; lia).
    rewrite lookup_app_r by (rewrite take_length; lia). rewrite take_length, Nat.min_l by lia. by rewrite Nat.sub_diag.
  - rewrite list_lookup_insert_ne by lia. rewrite lookup_app_r by (rewrite take_length, app_length; cbn [length]; lia). rewrite take_length, app_length, Nat.min_l by (cbn [length]; lia).
    rewrite (lookup_app_r (take idx c)) by (rewrite take_length; lia). rewrite take_length, Nat.min_l by lia.
    replace (i - idx)%nat with (S (i - S idx)) by lia. rewrite lookup_cons. cbv iota. rewrite lookup_drop.
    destruct (decide (i - S idx < length c - idx)%nat) as [Hx|Hx].
    + rewrite lookup_take by lia. rewrite lookup_drop. rewrite lookup_app_l by lia. done.
    + rewrite lookup_take_ge by lia. rewrite lookup_ge_None_2 by lia. done.
Qed.

(* ---------- trees ---------- *)

Lemma get_span_ref_bound id spans i : get_span_ref id spans = Some i -> (i < length spans)%nat.
Proof. unfold get_span_ref. destruct (Nat.ltb_spec (position id spans) (length spans)) as [H|H]; [|done]. cbn [andb]. destruct (_ =? id); [|done]. by intros [= <-]. Qed.

Lemma hadd_spec ord extra now new mem t : ok_slice mem (ht_spans t) ->
  exists mem' t', hadd ord extra now new mem t = Some (mem', t') /\ see mem' t' = add_span ord now new (see mem t) /\ moved mem (ht_spans t) mem' (ht_spans t').
Proof.
  intros Hok. unfold hadd, add_span, span_ref. destruct t as [id sl st up n]. cbn [ht_spans ht_id ht_started ht_count see t_spans t_id t_started t_count] in *.
  assert (Hap : exists mem' t', ('(mem, sl) ← slice_append extra mem sl new; Some (mem, HTree id sl st now (u16 (n + 1)))) = Some (mem', t') /\
    see mem' t' = Tree id (append_span new (cells mem sl)) st now (u16 (n + 1)) /\ moved mem sl mem' (ht_spans t')).
  { destruct (slice_append_spec extra mem sl new Hok) as (m1 & s1 & -> & C1 & M1). cbn [mbind option_bind]. eexists _, _. split; [reflexivity|].
    split; [|done]. unfold see. cbn [ht_spans ht_id ht_started ht_updated ht_count]. by rewrite C1. }
  destruct sl as [[a m]|]; [|exact Hap]. destruct (get_span_ref (s_id new) (cells mem (Some (a, m)))) as [i|] eqn:Eg; cbn [fmap option_fmap option_map]; [|exact Hap].
  clear Hap. apply get_span_ref_bound in Eg. rewrite (cells_length _ _ _ Hok) in Eg. rewrite (load_cells mem a m i Hok Eg).
  destruct (lookup_lt_is_Some_2 (cells mem (Some (a, m))) i) as [s Es]; [by rewrite (cells_length _ _ _ Hok)|]. rewrite Es. cbn [mbind option_bind].
  assert (H1 : exists m1, (if id_is_unknown (s_parent s) then store mem (a, i) (set_parent (s_parent new) s) else Some mem) = Some m1 /\
    cells m1 (Some (a, m)) = <[i := if id_is_unknown (s_parent s) then set_parent (s_parent new) s else s]> (cells mem (Some (a, m))) /\ moved mem (Some (a, m)) m1 (Some (a, m))).
  { destruct (id_is_unknown (s_parent s)).
    - by apply store_spec.
    - exists mem. split; [done|]. split; [by rewrite list_insert_id|]. by apply moved_refl. }
  destruct H1 as (m1 & -> & C1 & M1). cbn [mbind option_bind]. rewrite (load_cells m1 a m i) by (try done; by destruct M1). rewrite C1.
  rewrite list_lookup_insert by (by rewrite (cells_length _ _ _ Hok)). cbn [mbind option_bind].
  destruct (store_spec m1 a m i (merge_spans ord (if id_is_unknown (s_parent s) then set_parent (s_parent new) s else s) new)) as (m2 & -> & C2 & M2); [by destruct M1|done|].
  cbn [mbind option_bind]. eexists _, _. split; [reflexivity|]. split; [|by eapply moved_trans].
  unfold see. cbn [ht_spans ht_id ht_started ht_updated ht_count]. f_equal. rewrite C2, C1, list_insert_insert.
  apply list_eq. intros j. destruct (decide (i = j)) as [<-|Hne].
  - rewrite list_lookup_insert by (by rewrite (cells_length _ _ _ Hok)). rewrite list_lookup_alter, Es. done.
  - by rewrite list_lookup_insert_ne, list_lookup_alter_ne.
Qed.

Lemma indices_bound test spans i : i ∈ indices test spans -> (i < length spans)%nat.
Proof.
  unfold indices. intros H. apply elem_of_list_fmap in H as (p & -> & H). apply elem_of_list_In, filter_In in H as [H _].
  apply elem_of_list_In, elem_of_lookup_imap in H as (j & x & -> & H). by apply lookup_lt_Some in H.
Qed.

Lemma pointers_length sl l : (sl = None -> l = []) -> length (pointers sl l) = length l.
Proof. destruct sl as [[a n]|]; intros H; [apply map_length|by rewrite H]. Qed.

Lemma load_all mem sl l : ok_slice mem sl -> Forall (fun i => (i < length (cells mem sl))%nat) l ->
  exists cs, mapM (load mem) (pointers sl l) = Some cs /\ omap (fun i => cells mem sl !! i) l = cs /\ length cs = length l.
Proof.
  intros Hok Hl. destruct sl as [[a n]|].
  - induction Hl as [|i l Hi Hl (cs & IH1 & IH2 & IH3)]; [by exists []|]. cbn [pointers map mapM].
    rewrite (cells_length _ _ _ Hok) in Hi. rewrite (load_cells mem a n i Hok Hi).
    destruct (lookup_lt_is_Some_2 (cells mem (Some (a, n))) i) as [s Es]; [by rewrite (cells_length _ _ _ Hok)|]. rewrite Es. cbn [mbind option_bind].
    change (map (fun i => (a, i)) l) with (pointers (Some (a, n)) l). rewrite IH1. cbn [mbind option_bind]. exists (s :: cs). split; [done|].
    cbn [omap list_omap]. rewrite Es. split; [f_equal; exact IH2|]. cbn. by rewrite IH3.
  - destruct Hl as [|i l Hi Hl]; [by exists []|]. cbn in Hi. lia.
Qed.

Lemma hfind_spec ord extra now mem t : ok_slice mem (ht_spans t) ->
  exists mem' t' rs, hfind ord extra now mem t = Some (mem', t', pointers (ht_spans t') rs) /\ find_roots ord now (see mem t) = (see mem' t', rs) /\
    rs = roots (cells mem' (ht_spans t')) /\ moved mem (ht_spans t) mem' (ht_spans t').
Proof.
  intros Hok. unfold hfind, hroots. set (rs := roots (cells mem (ht_spans t))).
  assert (Hin : Forall (fun i => (i < length (cells mem (ht_spans t)))%nat) rs) by (apply Forall_forall; intros i Hi; by apply indices_bound in Hi).
  destruct (load_all mem (ht_spans t) rs Hok Hin) as (cs & E1 & E2 & E3).
  assert (El : length (pointers (ht_spans t) rs) = length rs) by (apply pointers_length; intros E; unfold rs; by rewrite E).
  unfold find_roots. change (t_spans (see mem t)) with (cells mem (ht_spans t)). fold rs. rewrite E2, El.
  assert (Hsame : moved mem (ht_spans t) mem (ht_spans t)) by (by apply moved_refl).
  destruct (Nat.ltb_spec 1 (length rs)) as [H|H].
  - rewrite E1. cbn [mbind option_bind]. destruct cs as [|s0 [|s1 rest]]; [cbn in E3; lia..|].
    destruct (all_the_same_parent s0 (s1 :: rest)).
    + destruct (hadd_spec ord extra now (create_fake_root s0 (s1 :: rest)) mem t Hok) as (m1 & t1 & -> & S1 & M1). cbn [mbind option_bind].
      eexists m1, t1, _. split; [reflexivity|]. rewrite <- S1. done.
    + by exists mem, t, rs.
  - destruct cs as [|s0 [|s1 rest]]; [| |cbn in E3; lia]; by exists mem, t, rs.
Qed.

Lemma correct_length fuel : forall mem i par off l seen, correct fuel mem i par off = Some (l, seen) -> length l = length mem.
Proof.
  induction fuel as [|fuel IH]; intros mem i par off l seen; cbn [correct]; [done|]. destruct (mem !! i) as [s|]; [|done].
  destruct (correct_node s _ off) as [s' off']. set (go := fix go (children : list nat) (mem : list span) (seen : list nat) {struct children} := _).
  assert (Hgo : forall ch m sn, go ch m sn = Some (l, seen) -> length l = length m).
  { induction ch as [|c ch IHc]; intros m sn; cbn; [by intros [= <- _]|]. destruct (correct fuel m c (Some i) off') as [[m' sn']|] eqn:Ec; [|done].
    intros Hx. rewrite (IHc _ _ Hx). by apply (IH _ _ _ _ _ _ Ec). }
  intros Hx. rewrite (Hgo _ _ _ Hx). by rewrite insert_length.
Qed.

Lemma hcorrect_spec a n fuel : forall mem i par off, ok_slice mem (Some (a, n)) -> (i < n)%nat -> (match par with None => True | Some j => (j < n)%nat end) ->
  match correct fuel (cells mem (Some (a, n))) i par off with
  | Some (l, _) => exists mem', hcorrect fuel (Some (a, n)) mem (a, i) ((fun j => (a, j)) <$> par) off = Done mem' /\ cells mem' (Some (a, n)) = l /\
      moved mem (Some (a, n)) mem' (Some (a, n))
  | None => hcorrect fuel (Some (a, n)) mem (a, i) ((fun j => (a, j)) <$> par) off = Deep
  end.
Proof.
  induction fuel as [|fuel IH]; intros mem i par off Hok Hi Hp; cbn [correct hcorrect]; [done|].
  rewrite (load_cells mem a n i Hok Hi). destruct (lookup_lt_is_Some_2 (cells mem (Some (a, n))) i) as [s Es]; [by rewrite (cells_length _ _ _ Hok)|]. rewrite Es.
  assert (Epar : match (fun j => (a, j)) <$> par with None => Some None | Some p => Some <$> load mem p end = Some (par ≫= fun p => cells mem (Some (a, n)) !! p)).
  { destruct par as [j|]; cbn [fmap option_fmap option_map mbind option_bind]; [|done]. rewrite (load_cells mem a n j Hok Hp).
    destruct (lookup_lt_is_Some_2 (cells mem (Some (a, n))) j) as [x Ex]; [by rewrite (cells_length _ _ _ Hok)|]. by rewrite Ex. }
  rewrite Epar. destruct (correct_node s _ off) as [s' off'].
  destruct (store_spec mem a n i s' Hok Hi) as (m1 & -> & C1 & M1). rewrite <- C1. unfold hchildren. cbn [pointers].
  set (ch := children_of (s_id s') (cells m1 (Some (a, n)))).
  assert (Hch : Forall (fun c => (c < n)%nat) ch).
  { apply Forall_forall. intros c Hc. apply indices_bound in Hc. rewrite cells_length in Hc; [done|by destruct M1]. }
  clearbody ch. clear C1. generalize [i]. revert m1 M1. induction Hch as [|c ch Hc Hch IHc]; intros m1 M1 sn; cbn [map].
  - exists m1. split; [done|]. split; [done|]. exact M1.
  - specialize (IH m1 c (Some i) off'). cbn [fmap option_fmap option_map] in IH. destruct (correct fuel (cells m1 (Some (a, n))) c (Some i) off') as [[l sn']|] eqn:Ec.
    + destruct IH as (m2 & -> & C2 & M2); [by destruct M1|done|done|]. rewrite <- C2.
      apply (IHc m2). by eapply moved_trans.
    + rewrite IH; [done|by destruct M1|done|done].
Qed.
