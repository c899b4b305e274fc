(** Lemmas about the LRU cache and the intern cache. *)
From Verif Require Import Base LruModel LruSpec.

(* ---------- doubly linked segments ---------- *)

Notation cells := (list (nat * gstr)).

Definition hd_ptr (l : cells) (nx : option nat) : option nat := match l with [] => nx | (p, _) :: _ => Some p end.
Fixpoint last_ptr (pv : option nat) (l : cells) : option nat :=
  match l with [] => pv | (p, _) :: l' => last_ptr (Some p) l' end.

Fixpoint seg (h : gmap nat node) (pv : option nat) (l : cells) (nx : option nat) : Prop :=
  match l with
  | [] => True
  | (p, v) :: l' => h !! p = Some (Node pv (hd_ptr l' nx) v) /\ seg h (Some p) l' nx
  end.

Lemma hd_ptr_app l1 l2 nx : hd_ptr (l1 ++ l2) nx = hd_ptr l1 (hd_ptr l2 nx).
Proof. by destruct l1 as [|[] ?]. Qed.
Lemma last_ptr_app pv l1 l2 : last_ptr pv (l1 ++ l2) = last_ptr (last_ptr pv l1) l2.
Proof. revert pv. induction l1 as [|[p v] l1 IH]; intros pv; cbn; auto. Qed.
Lemma last_ptr_snoc pv l p v : last_ptr pv (l ++ [(p, v)]) = Some p.
Proof. by rewrite last_ptr_app. Qed.

Lemma seg_app h l1 : forall pv l2 nx, seg h pv (l1 ++ l2) nx <-> seg h pv l1 (hd_ptr l2 nx) /\ seg h (last_ptr pv l1) l2 nx.
Proof.
  induction l1 as [|[p v] l1 IH]; intros pv l2 nx; cbn [app seg last_ptr]; [tauto|].
  rewrite hd_ptr_app, IH. tauto.
Qed.

Lemma seg_frame h l p n : p ∉ l.*1 -> forall pv nx, seg h pv l nx -> seg (<[p := n]> h) pv l nx.
Proof.
  induction l as [|[q v] l IH]; cbn [seg fmap list_fmap fst]; intros Hp pv nx; [done|].
  apply not_elem_of_cons in Hp as [Hne Hp]. intros [H1 H2]. split; [|by apply IH].
  by rewrite lookup_insert_ne.
Qed.

Lemma seg_lookup h l : forall pv nx p v, (p, v) ∈ l -> seg h pv l nx -> exists a b, h !! p = Some (Node a b v).
Proof.
  induction l as [|[q w] l IH]; intros pv nx p v Hin [H1 H2] || (intros pv nx p v Hin H); [by apply elem_of_nil in Hin|].
  apply elem_of_cons in Hin as [[= -> ->]|Hin]; [eauto|]. by eapply IH.
Qed.

(** Changing the link after the last cell. *)
Lemma seg_set_last h l p v pv nx nx' : p ∉ l.*1 -> seg h pv (l ++ [(p, v)]) nx ->
  exists h', set_next h p nx' = LOk h' /\ h' = <[p := Node (last_ptr pv l) nx' v]> h /\ seg h' pv (l ++ [(p, v)]) nx'.
Proof.
  intros Hp Hs. apply seg_app in Hs as [H1 [H2 _]]. cbn [hd_ptr] in *.
  unfold set_next, load. rewrite H2. cbn. eexists. split; [done|]. split; [done|].
  apply seg_app. cbn [hd_ptr seg]. split; [by apply seg_frame|]. split; [|done]. apply lookup_insert.
Qed.

(** Changing the link before the first cell. *)
Lemma seg_set_first h l p v pv pv' nx : p ∉ l.*1 -> seg h pv ((p, v) :: l) nx ->
  exists h', set_prev h p pv' = LOk h' /\ h' = <[p := Node pv' (hd_ptr l nx) v]> h /\ seg h' pv' ((p, v) :: l) nx.
Proof.
  intros Hp [H1 H2]. unfold set_prev, load. rewrite H1. cbn. eexists. split; [done|]. split; [done|].
  cbn [seg]. split; [apply lookup_insert|]. by apply seg_frame.
Qed.

(** The list [l] of cells is linked up in [L]. *)
Definition LInv (L : llist) (l : cells) : Prop :=
  l_head L = hd_ptr l None /\ l_tail L = last_ptr None l /\ seg (l_heap L) None l None /\ NoDup l.*1.

Lemma last_ptr_in l pv p : last_ptr pv l = Some p -> l <> [] -> p ∈ l.*1.
Proof.
  intros H Hne. destruct l as [|[q v] l _] using rev_ind; [done|]. rewrite last_ptr_snoc in H. injection H as ->.
  rewrite fmap_app. apply elem_of_app. right. by left.
Qed.

Lemma NoDup_mid (l1 l2 : cells) e v : NoDup (l1 ++ (e, v) :: l2).*1 -> e ∉ l1.*1 /\ e ∉ l2.*1 /\ NoDup (l1 ++ l2).*1 /\
  (forall p, p ∈ l1.*1 -> p ∉ l2.*1).
Proof.
  rewrite !fmap_app, fmap_cons. cbn [fst]. intros H. apply NoDup_app in H as (H1 & H2 & H3).
  apply NoDup_cons in H3 as [H3 H4]. split; [|split; [|split]].
  - intros Hin. apply (H2 _ Hin). by left.
  - done.
  - apply NoDup_app. split; [done|]. split; [|done]. intros x Hx Hx2. apply (H2 _ Hx). by right.
  - intros p Hp Hp2. apply (H2 _ Hp). by right.
Qed.

Lemma push_head_existing L l1 l2 e v : LInv L (l1 ++ (e, v) :: l2) ->
  exists L', push_head L e = LOk L' /\ LInv L' ((e, v) :: l1 ++ l2).
Proof.
  intros (Hh & Ht & Hs & Hnd). destruct L as [hd tl h]; cbn [l_head l_tail l_heap] in *.
  pose proof (NoDup_mid _ _ _ _ Hnd) as (He1 & He2 & Hnd' & Hdisj).
  destruct l1 as [|[p pv] l1' _] using rev_ind.
  { unfold push_head; cbn [l_head]. rewrite Hh. cbn [app hd_ptr]. rewrite decide_True by done.
    eexists. split; [done|]. done. }
  set (l1 := l1' ++ [(p, pv)]) in *.
  assert (Hpe : p <> e).
  { intros ->. apply He1. unfold l1. rewrite fmap_app. apply elem_of_app. right. by left. }
  assert (Hhd : hd_ptr (l1 ++ (e, v) :: l2) None <> Some e).
  { rewrite hd_ptr_app. unfold l1. rewrite hd_ptr_app. intros E. apply He1. unfold l1. rewrite fmap_app. apply elem_of_app.
    destruct l1' as [|[q w] l1']; cbn in E; injection E as <-; [right|left]; by left. }
  pose proof Hs as Hs0. apply seg_app in Hs as [Hs1 Hs2]. unfold l1 in Hs2 at 1. rewrite last_ptr_snoc in Hs2.
  destruct Hs2 as [Hse Hs2]. cbn [hd_ptr] in Hs1.
  unfold push_head; cbn [l_head l_tail l_heap]. rewrite Hh, decide_False by done.
  unfold load at 1. rewrite Hse. cbn [lbind n_prev n_next].
  (* unlink from the predecessor *)
  assert (Hp1 : p ∉ l1'.*1).
  { unfold l1 in Hnd'. rewrite <- app_assoc, fmap_app in Hnd'. apply NoDup_app in Hnd' as (_ & H & _). intros Hin. apply (H _ Hin). cbn. by left. }
  assert (Hp2 : p ∉ l2.*1).
  { apply Hdisj. unfold l1. rewrite fmap_app. apply elem_of_app. right. by left. }
  destruct (seg_set_last h l1' p pv None (Some e) (hd_ptr l2 None) Hp1 Hs1) as (h1 & E1 & Eh1 & S1). fold l1 in S1.
  rewrite E1. cbn [lbind].
  assert (S2 : seg h1 (Some e) l2 None) by (rewrite Eh1; by apply seg_frame).
  assert (Se1 : h1 !! e = Some (Node (Some p) (hd_ptr l2 None) v)) by (rewrite Eh1, lookup_insert_ne by done; done).
  unfold load at 1. rewrite Se1. cbn [lbind n_prev n_next].
  (* unlink from the successor *)
  assert (K : exists h2, match hd_ptr l2 None with Some q => set_prev h1 q (Some p) | None => LOk h1 end = LOk h2 /\
      seg h2 None l1 (hd_ptr l2 None) /\ seg h2 (Some p) l2 None /\ h2 !! e = h1 !! e).
  { destruct l2 as [|[q qv] l2']; cbn [hd_ptr].
    - exists h1. done.
    - rewrite fmap_cons in He2. apply not_elem_of_cons in He2 as [Hqe _].
      assert (Hq : q ∉ l2'.*1).
      { rewrite fmap_app, fmap_cons in Hnd'. apply NoDup_app in Hnd' as (_ & _ & H). by apply NoDup_cons in H as [? _]. }
      assert (Hq1 : q ∉ l1.*1). { intros Hin. apply (Hdisj _ Hin). by left. }
      destruct (seg_set_first h1 l2' q qv (Some e) (Some p) None Hq S2) as (h2 & E2 & Eh2 & S2').
      exists h2. split; [done|]. split; [rewrite Eh2; by apply seg_frame|]. split; [done|].
      rewrite Eh2. by rewrite lookup_insert_ne. }
  destruct K as (h2 & -> & Sl1 & Sl2 & Se2). cbn [lbind].
  assert (S3 : seg h2 None (l1 ++ l2) None).
  { apply seg_app. split; [done|]. unfold l1. rewrite last_ptr_snoc. done. }
  (* link before the old head *)
  assert (Hne : exists hp hv t, l1 ++ l2 = (hp, hv) :: t).
  { unfold l1. destruct l1' as [|[a b] ?]; cbn; eauto. }
  destruct Hne as (hp & hv & t & Elt).
  assert (Hhead : hd_ptr (l1 ++ (e, v) :: l2) None = Some hp).
  { rewrite hd_ptr_app. assert (E := f_equal (fun x => hd_ptr x None) Elt). cbn in E. rewrite hd_ptr_app in E. unfold l1 in *.
    rewrite hd_ptr_app in *. destruct l1' as [|[]]; cbn in *; done. }
  rewrite Hhead. rewrite Elt in S3, Hnd'.
  assert (Hht : hp ∉ t.*1) by (by apply NoDup_cons in Hnd' as [? _]).
  destruct (seg_set_first h2 t hp hv None (Some e) None Hht S3) as (h3 & -> & Eh3 & S3'). cbn [lbind].
  assert (Hel : e ∉ (l1 ++ l2).*1). { rewrite fmap_app. intros [?|?]%elem_of_app; done. }
  assert (Hehp : e <> hp). { rewrite Elt in Hel. by apply not_elem_of_cons in Hel as [? _]. }
  assert (Se3 : h3 !! e = Some (Node (Some p) (hd_ptr l2 None) v)).
  { rewrite Eh3, lookup_insert_ne by done. by rewrite Se2, Se1. }
  unfold set_prev, load at 1. rewrite Se3. cbn [lbind n_prev n_next n_val].
  unfold set_next, load. rewrite lookup_insert. cbn [lbind n_prev n_next n_val].
  eexists. split; [done|]. split; [|split; [|split]]; cbn [l_head l_tail l_heap].
  - done.
  - rewrite Ht. cbn [last_ptr]. rewrite !last_ptr_app. unfold l1 at 1 2 3. rewrite !last_ptr_snoc. cbn [last_ptr].
    destruct l2 as [|[q qv] l2'] using rev_ind.
    + cbn [last_ptr]. rewrite decide_True by done. unfold l1. by rewrite last_ptr_snoc.
    + rewrite last_ptr_snoc. rewrite decide_False; [|intros [= ->]; apply He2; rewrite fmap_app; apply elem_of_app; right; by left].
      by rewrite last_ptr_snoc.
  - cbn [seg]. rewrite Elt. split; [by rewrite lookup_insert|].
    rewrite insert_insert. apply seg_frame; [|done]. by rewrite <- Elt.
  - cbn [fmap list_fmap fst]. apply NoDup_cons. split; [done|]. by rewrite Elt.
Qed.

Lemma push_head_new L l e v : LInv (LList (l_head L) (l_tail L) (delete e (l_heap L))) l -> 
  l_heap L !! e = Some (Node None None v) -> e ∉ l.*1 ->
  exists L', push_head L e = LOk L' /\ LInv L' ((e, v) :: l).
Proof.
  intros (Hh & Ht & Hs & Hnd) He Hel. destruct L as [hd tl h]; cbn [l_head l_tail l_heap] in *.
  assert (Hs' : seg h None l None).
  { replace h with (<[e := Node None None v]> (delete e h)); [by apply seg_frame|]. by rewrite insert_delete. }
  unfold push_head; cbn [l_head l_tail l_heap].
  assert (Hhd : hd <> Some e).
  { rewrite Hh. destruct l as [|[p w] l]; cbn; [done|]. intros [= ->]. apply Hel. by left. }
  rewrite decide_False by done. unfold load at 1. rewrite He. cbn [lbind n_prev n_next].
  unfold load at 1. rewrite He. cbn [lbind n_prev n_next].
  destruct l as [|[p w] l]; cbn [hd_ptr last_ptr] in Hh, Ht; subst hd.
  - subst tl. cbn [lbind]. unfold set_prev, load at 1. rewrite He. cbn [lbind n_prev n_next n_val].
    unfold set_next, load. rewrite lookup_insert. cbn [lbind n_prev n_next n_val].
    eexists. split; [done|]. rewrite decide_False by done. split; [done|]. split; [done|]. cbn [l_heap].
    split; [|cbn; apply NoDup_singleton]. cbn. split; [|done]. by rewrite lookup_insert.
  - rewrite fmap_cons in Hel, Hnd. cbn [fst] in Hel, Hnd. apply NoDup_cons in Hnd as [Hpl Hnd]. apply not_elem_of_cons in Hel as [Hep Hel].
    destruct (seg_set_first h l p w None (Some e) None Hpl Hs') as (h3 & -> & Eh3 & S3). cbn [lbind].
    unfold set_prev, load at 1. rewrite Eh3, lookup_insert_ne, He by done. cbn [lbind n_prev n_next n_val]. rewrite <- Eh3.
    unfold set_next, load. rewrite lookup_insert. cbn [lbind n_prev n_next n_val].
    eexists. split; [done|].
    assert (Htl : tl <> Some e).
    { rewrite Ht. intros E. destruct l as [|[q x] l] ; [cbn in E; injection E as <-; done|].
      apply last_ptr_in in E; [|done]. done. }
    rewrite decide_False by done.
    split; [done|]. cbn [l_tail l_heap l_head]. split.
    { cbn [last_ptr]. rewrite Ht. destruct (last_ptr (Some p) l) eqn:E; [done|].
      exfalso. clear -E. revert E. generalize p. induction l as [|[q x] l IH]; cbn; [done|eauto]. }
    split.
    + cbn [seg]. split; [by rewrite lookup_insert|]. rewrite insert_insert. 
      apply (seg_frame h3 ((p, w) :: l)); [|done]. cbn. by apply not_elem_of_cons.
    + cbn. apply NoDup_cons. split; [by apply not_elem_of_cons|]. by apply NoDup_cons.
Qed.

Lemma drop_tail_nil L : LInv L [] -> drop_tail L = LOk (L, None).
Proof. intros (_ & Ht & _). cbn in Ht. unfold drop_tail. by rewrite Ht. Qed.

Lemma drop_tail_snoc L l e v : LInv L (l ++ [(e, v)]) ->
  exists L' a b, drop_tail L = LOk (L', Some e) /\ LInv L' l /\ l_heap L' !! e = Some (Node a b v).
Proof.
  intros (Hh & Ht & Hs & Hnd). destruct L as [hd tl h]; cbn [l_head l_tail l_heap] in *.
  rewrite last_ptr_snoc in Ht. unfold drop_tail; cbn [l_head l_tail l_heap]. rewrite Ht.
  apply seg_app in Hs as [Hs1 [Hse _]]. cbn [hd_ptr] in *.
  pose proof (NoDup_mid l [] e v Hnd) as (He & _ & Hnd' & _). rewrite app_nil_r in Hnd'.
  unfold load. rewrite Hse. cbn [lbind n_prev].
  destruct l as [|[p pv] l _] using rev_ind.
  - cbn [last_ptr lbind]. cbn in Hh. rewrite decide_True by done. cbn [fst]. do 3 eexists. split; [done|]. split; [|exact Hse].
    split; [done|]. split; [done|]. split; [done|]. constructor.
  - rewrite last_ptr_snoc in *.
    assert (Hp : p ∉ l.*1). { rewrite fmap_app in Hnd'. apply NoDup_app in Hnd' as (_ & H & _). intros Hin. apply (H _ Hin). by left. }
    destruct (seg_set_last h l p pv None (Some e) None Hp Hs1) as (h1 & -> & Eh & S1). cbn [lbind fst snd].
    assert (Hhe : hd <> Some e).
    { rewrite Hh, <- app_assoc, hd_ptr_app. intros E. apply He. rewrite fmap_app. apply elem_of_app.
      destruct l as [|[q w] l]; cbn in E; injection E as <-; [right|left]; by left. }
    rewrite decide_False by done. do 3 eexists. split; [done|]. cbn [l_heap]. split.
    + split; [cbn; rewrite Hh, <- app_assoc, !hd_ptr_app; by destruct l as [|[]]|]. split; [by rewrite last_ptr_snoc|]. split; [done|]. done.
    + rewrite Eh, lookup_insert_ne; [exact Hse|]. intros ->. apply He. rewrite fmap_app. apply elem_of_app. right. by left.
Qed.

(* ---------- the cache ---------- *)

Definition vals (l : cells) : list gostring := map (fun c => g_val c.2) l.

(** [l] lists the cells of the cache from head to tail. *)
Definition CInv (c : lru) (l : cells) : Prop :=
  LInv (lru_list c) l /\ NoDup (vals l) /\
  (forall s p, c_values c !! s = Some p <-> exists g, (p, g) ∈ l /\ g_val g = s) /\
  lru_size c = accounted (vals l) /\ c_count c = Z.of_nat (length l) /\
  (forall p, p ∈ l.*1 -> (p < c_fresh c)%nat).

Lemma vals_app a b : vals (a ++ b) = vals a ++ vals b.
Proof. apply map_app. Qed.

Lemma accounted_app a b : accounted (a ++ b) = accounted a + accounted b.
Proof. induction a as [|x a IH]; cbn [accounted app]; lia. Qed.
Lemma accounted_nonneg a : 0 <= accounted a.
Proof. induction a as [|x a IH]; cbn [accounted]; lia. Qed.

Lemma elem_vals (s : gostring) (l : cells) : s ∈ vals l <-> exists p g, (p, g) ∈ l /\ g_val g = s.
Proof.
  unfold vals. change (map (fun c : nat * gstr => g_val c.2) l) with ((fun c : nat * gstr => g_val c.2) <$> l).
  rewrite elem_of_list_fmap. split.
  - intros ([p g] & -> & H). eauto.
  - intros (p & g & H & <-). exists (p, g). done.
Qed.

Lemma CInv_values_dom c l s : CInv c l -> (is_Some (c_values c !! s) <-> s ∈ vals l).
Proof.
  intros (_ & _ & Hv & _). rewrite elem_vals. split.
  - intros [p Hp]. apply Hv in Hp as (g & ? & ?). eauto.
  - intros (p & g & ? & ?). exists p. apply Hv. eauto.
Qed.

Lemma perm_move {A} (x : A) l1 l2 : x :: l1 ++ l2 ≡ₚ l1 ++ x :: l2.
Proof. by rewrite Permutation_middle. Qed.

Lemma accounted_perm a b : a ≡ₚ b -> accounted a = accounted b.
Proof. induction 1; cbn [accounted]; lia. Qed.

(** Moving a found cell to the front. *)
Lemma CInv_touch c l1 l2 p g : CInv c (l1 ++ (p, g) :: l2) ->
  exists L, push_head (lru_list c) p = LOk L /\ CInv (with_list c L) ((p, g) :: l1 ++ l2) /\
    to_front (g_val g) (vals (l1 ++ (p, g) :: l2)) (vals ((p, g) :: l1 ++ l2)).
Proof.
  intros (HL & Hnv & Hv & Hsz & Hcnt & Hfr). destruct (push_head_existing _ _ _ _ _ HL) as (L & E & HL').
  exists L. split; [done|]. assert (HP := perm_move (p, g) l1 l2).
  assert (HPv : vals ((p, g) :: l1 ++ l2) ≡ₚ vals (l1 ++ (p, g) :: l2)) by (unfold vals; by rewrite HP).
  split.
  - split; [by destruct L|]. split; [by rewrite HPv|]. split.
    { intros s q. cbn [with_list c_values]. rewrite Hv. by setoid_rewrite HP. }
    split; [rewrite (accounted_perm _ _ HPv); exact Hsz|]. split; [rewrite HP; exact Hcnt|].
    intros q. cbn [with_list c_fresh]. setoid_rewrite HP. apply Hfr.
  - exists (vals l1), (vals l2). rewrite !vals_app. cbn [vals map snd]. split; [done|]. split; [|by rewrite vals_app].
    rewrite vals_app in Hnv. apply NoDup_app in Hnv as (_ & H & _). intros Hin. apply (H _ Hin). cbn. by left.
Qed.

Lemma CInv_find c l s p : CInv c l -> c_values c !! s = Some p ->
  exists l1 g l2, l = l1 ++ (p, g) :: l2 /\ g_val g = s.
Proof.
  intros (_ & _ & Hv & _) H. apply Hv in H as (g & Hin & Hg). apply elem_of_list_split in Hin as (l1 & l2 & ->). eauto.
Qed.

Lemma CInv_load c l p g : CInv c l -> (p, g) ∈ l -> exists n, load (c_heap c) p = LOk n /\ n_val n = g.
Proof.
  intros ((_ & _ & Hs & _) & _) Hin. destruct (seg_lookup _ _ _ _ _ _ Hin Hs) as (a & b & E). unfold load.
  change (l_heap (lru_list c)) with (c_heap c) in E. rewrite E. eauto.
Qed.

Lemma lru_get_ok c l s : CInv c l ->
  (s ∈ vals l /\ exists c' l' g, lru_get c s = LOk (c', Some g) /\ g_val g = s /\ g ∈ l.*2 /\ CInv c' l' /\ c_max c' = c_max c /\
      to_front s (vals l) (vals l') /\ (forall x, x ∈ l'.*2 -> x ∈ l.*2)) \/
  (s ∉ vals l /\ lru_get c s = LOk (c, None)).
Proof.
  intros HI. unfold lru_get. destruct (c_values c !! s) as [p|] eqn:E.
  - left. destruct (CInv_find _ _ _ _ HI E) as (l1 & g & l2 & -> & <-).
    assert (Hin : (p, g) ∈ l1 ++ (p, g) :: l2) by (apply elem_of_app; right; by left).
    split; [apply elem_vals; eauto|]. destruct (CInv_load _ _ _ _ HI Hin) as (n & -> & Hn). cbn [lbind].
    destruct (CInv_touch _ _ _ _ _ HI) as (L & -> & HI' & Hf). cbn [lbind]. rewrite Hn. do 3 eexists. split; [done|].
    split; [done|]. split; [by apply (elem_of_list_fmap_1 snd) in Hin|]. split; [done|]. split; [done|]. split; [done|].
    intros x. by rewrite (perm_move (p, g) l1 l2).
  - right. split; [|done]. intros Hin. apply (CInv_values_dom _ _ _ HI) in Hin. rewrite E in Hin. by destruct Hin.
Qed.

Lemma ensure_stop fuel c : lru_size c < c_max c -> ensure_cache_size fuel c = LOk c.
Proof. intros H. destruct fuel; cbn [ensure_cache_size]; (destruct (Z.leb_spec (c_max c) (lru_size c)); [lia|done]). Qed.

Lemma ensure_ok : forall fuel c l, CInv c l -> 0 < c_max c -> (length l <= fuel)%nat ->
  exists c' l', ensure_cache_size fuel c = LOk c' /\ CInv c' l' /\ c_max c' = c_max c /\ c_fresh c' = c_fresh c /\
    l' `prefix_of` l /\ evicted (c_max c) (vals l) (vals l').
Proof.
  induction fuel as [|fuel IH]; intros c l HI Hmax Hf.
  - assert (l = []) as -> by (destruct l; [done|cbn in Hf; lia]).
    pose proof HI as (_ & _ & _ & Hsz & _). cbn [vals map accounted] in Hsz.
    exists c, []. split; [apply ensure_stop; lia|]. do 4 (split; [done|]).
    split; [done|]. split; [cbn; lia|]. done.
  - destruct (Z.lt_ge_cases (lru_size c) (c_max c)) as [Hlt|Hge].
    { exists c, l. split; [by apply ensure_stop|]. do 4 (split; [done|]).
      split; [done|]. split; [|done]. destruct HI as (_ & _ & _ & <- & _). done. }
    cbn [ensure_cache_size]. replace (c_max c <=? lru_size c) with true by lia.
    destruct l as [|[p g] l _] using rev_ind.
    { destruct HI as (_ & _ & _ & Hsz & _). cbn [vals map accounted] in Hsz. lia. }
    pose proof HI as (HL & Hnv & Hv & Hsz & Hcnt & Hfr).
    destruct (drop_tail_snoc _ _ _ _ HL) as (L & a & b & -> & HL' & Hn). cbn [lbind fst snd].
    unfold load. rewrite Hn. cbn [lbind n_val].
    rewrite vals_app in Hnv. apply NoDup_app in Hnv as (Hnv1 & Hnv2 & _).
    assert (Hgl : g_val g ∉ vals l). { intros Hin. apply (Hnv2 _ Hin). by left. }
    set (c1 := Lru _ _ _ _ _ _ _ _).
    assert (HI1 : CInv c1 l).
    { split; [by destruct L|]. split; [done|]. split; [|split; [|split]].
      - intros s q. unfold c1; cbn [c_values with_list]. rewrite lookup_delete_Some, Hv. split.
        + intros [Hne (g' & Hin & Hg')]. apply elem_of_app in Hin as [Hin|Hin]; [eauto|].
          apply elem_of_list_singleton in Hin as [= -> ->]. done.
        + intros (g' & Hin & <-). split.
          * intros E. apply Hgl. rewrite E. apply elem_vals. eauto.
          * exists g'. split; [|done]. apply elem_of_app. by left.
      - unfold lru_size, c1; cbn [c_size c_count with_list]. unfold lru_size, item_overhead in *. rewrite vals_app, accounted_app in Hsz.
        cbn [vals map snd accounted] in Hsz. fold (vals l) in Hsz. lia.
      - unfold c1; cbn [c_count with_list]. rewrite app_length in Hcnt. cbn in Hcnt. lia.
      - intros q Hq. unfold c1; cbn [c_fresh with_list]. apply Hfr. rewrite fmap_app. apply elem_of_app. by left. }
    destruct (IH c1 l HI1) as (c' & l' & E & HI' & Hm' & Hfr' & Hpre & Hev).
    { done. } { rewrite app_length in Hf. cbn in Hf. lia. }
    exists c', l'. split; [exact E|]. split; [done|]. split; [done|]. split; [done|].
    split; [by apply prefix_app_r|]. change (c_max c1) with (c_max c) in Hev.
    destruct Hev as (Ev1 & Ev2 & Ev3). rewrite vals_app. split; [by apply prefix_app_r|]. split; [done|].
    intros q Hq Hql. apply Ev3; [|done]. destruct Hq as [k Hk]. destruct k as [|x k _] using rev_ind.
    + exfalso. rewrite app_nil_r in Hk. rewrite <- Hk, <- vals_app in Hql. rewrite Hsz in Hge. lia.
    + rewrite app_assoc in Hk. apply app_inj_tail in Hk as [-> _]. by exists k.
Qed.

Lemma lru_set_ok fuel c l g : CInv c l -> 0 < c_max c -> (length l <= fuel)%nat ->
  exists c' l', lru_set fuel c g = LOk c' /\ CInv c' l' /\ c_max c' = c_max c /\ (length l' <= S (length l))%nat /\
    ideal_step (c_max c) (vals l) (OSet g) (vals l') None /\ (forall x, x ∈ l'.*2 -> x = g \/ x ∈ l.*2).
Proof.
  intros HI Hmax Hf. unfold lru_set. destruct (c_values c !! g_val g) as [p|] eqn:E.
  - destruct (CInv_find _ _ _ _ HI E) as (l1 & g' & l2 & -> & Hg').
    destruct (CInv_touch _ _ _ _ _ HI) as (L & -> & HI' & Hfront). cbn [lbind]. do 2 eexists. split; [done|].
    split; [done|]. split; [done|]. split; [rewrite (perm_move (p, g') l1 l2); lia|]. split.
    + constructor. by rewrite <- Hg'.
    + intros x. rewrite (perm_move (p, g') l1 l2). by right.
  - destruct (ensure_ok fuel c l HI Hmax Hf) as (c1 & l1 & -> & HI1 & Hm1 & Hfr1 & Hpre & Hev). cbn [lbind].
    pose proof HI1 as (HL & Hnv & Hv & Hsz & Hcnt & Hfr).
    assert (Hgl0 : g_val g ∉ vals l).
    { intros Hin. apply (CInv_values_dom _ _ _ HI) in Hin. rewrite E in Hin. by destruct Hin. }
    assert (Hgl : g_val g ∉ vals l1).
    { intros Hin. apply Hgl0. destruct Hpre as [k ->]. rewrite vals_app. apply elem_of_app. by left. }
    assert (Hfresh : c_fresh c1 ∉ l1.*1) by (intros Hin; apply Hfr in Hin; lia).
    destruct (push_head_new (LList (c_head c1) (c_tail c1) (<[c_fresh c1 := Node None None g]> (c_heap c1))) l1 (c_fresh c1) g)
      as (L & -> & HL').
    { cbn [l_head l_tail l_heap]. destruct HL as (H1 & H2 & H3 & H4). split; [done|]. split; [done|]. split; [|done].
      cbn [l_heap]. rewrite delete_insert_delete. change (l_heap (lru_list c1)) with (c_heap c1) in H3. clear -H3 Hfresh.
      revert H3. generalize (@None nat) at 1 3. induction l1 as [|[q w] l1 IH]; intros pv; cbn [seg]; [done|].
      rewrite fmap_cons in Hfresh. apply not_elem_of_cons in Hfresh as [Hne Hf]. intros [A B]. split; [|by apply IH].
      rewrite lookup_delete_ne; [done|]. cbn in Hne. congruence. }
    { cbn. apply lookup_insert. } { done. }
    cbn [lbind]. do 2 eexists. split; [done|]. split; [|split; [done|split; [|split]]].
    + split; [by destruct L; exact HL'|]. split.
      { change (vals ((c_fresh c1, g) :: l1)) with (g_val g :: vals l1). by apply NoDup_cons. }
      split; [|split; [|split]].
      * intros s q. cbn [c_values]. destruct (decide (s = g_val g)) as [->|Hne].
        -- rewrite lookup_insert. split.
           ++ intros [= <-]. exists g. split; [by left|done].
           ++ intros (g' & Hin & Hg'). apply elem_of_cons in Hin as [[= -> ->]|Hin]; [done|].
              exfalso. apply Hgl. apply elem_vals. eauto.
        -- rewrite lookup_insert_ne by done. rewrite Hv. split.
           ++ intros (g' & Hin & Hg'). exists g'. split; [by right|done].
           ++ intros (g' & Hin & Hg'). exists g'. apply elem_of_cons in Hin as [[= -> ->]|Hin]; [done|done].
      * unfold lru_size in *; cbn [c_size c_count vals map snd accounted]. fold (vals l1). unfold item_overhead in *. lia.
      * cbn [c_count length]. lia.
      * intros q. cbn [c_fresh]. rewrite fmap_cons. intros [->|Hin]%elem_of_cons; [cbn; lia|]. apply Hfr in Hin. lia.
    + cbn [length]. destruct Hpre as [k ->]. rewrite app_length. lia.
    + change (vals ((c_fresh c1, g) :: l1)) with (g_val g :: vals l1). by constructor.
    + intros x. rewrite fmap_cons. intros [->|Hin]%elem_of_cons; [by left|right]. destruct Hpre as [k ->].
      rewrite fmap_app. apply elem_of_app. by left.
Qed.

Lemma CInv_new limit : CInv (new_lru limit) [].
Proof.
  split; [|split; [constructor|]].
  - split; [done|]. split; [done|]. split; [done|]. constructor.
  - split; [|split; [done|split; [done|]]].
    + intros s p. cbn. rewrite lookup_empty. split; [done|]. by intros (g & ?%elem_of_nil & _).
    + by intros p ?%elem_of_nil.
Qed.

(** Size bound: nothing stored, or some stored string accounts for all of the excess. *)
Definition size_bound (limit : Z) (l : list gostring) : Prop :=
  l = [] \/ exists s, s ∈ l /\ accounted l < limit + Z.of_nat (length s) + 56.

Lemma to_front_elem s l l' : to_front s l l' -> forall x, x ∈ l' <-> x ∈ l.
Proof. intros (l1 & l2 & -> & _ & ->) x. by rewrite (perm_move s l1 l2). Qed.
Lemma to_front_accounted s l l' : to_front s l l' -> accounted l' = accounted l.
Proof. intros (l1 & l2 & -> & _ & ->). apply accounted_perm. by rewrite (perm_move s l1 l2). Qed.

Lemma size_bound_step limit l o l' out : size_bound limit l -> ideal_step limit l o l' out -> size_bound limit l'.
Proof.
  intros Hb Hs. destruct Hs as [s l' Hf|s Hn|g l' Hf|g p Hn (Hp & Ha & _)]; [|done| |].
  - destruct Hb as [->|(x & Hx & Hlt)]. { destruct Hf as (l1 & l2 & H & _). by destruct l1. }
    right. exists x. rewrite (to_front_elem _ _ _ Hf), (to_front_accounted _ _ _ Hf). done.
  - destruct Hb as [->|(x & Hx & Hlt)]. { destruct Hf as (l1 & l2 & H & _). by destruct l1. }
    right. exists x. rewrite (to_front_elem _ _ _ Hf), (to_front_accounted _ _ _ Hf). done.
  - right. exists (g_val g). split; [by left|]. cbn [accounted]. lia.
Qed.

Lemma lops_ok fuel ops : forall c l, CInv c l -> 0 < c_max c -> (length l + length ops <= fuel)%nat -> size_bound (c_max c) (vals l) ->
  exists c' l' outs, lops_run fuel c ops = LOk (c', outs) /\ CInv c' l' /\ c_max c' = c_max c /\
    ideal_run (c_max c) (vals l) ops (vals l') outs /\ size_bound (c_max c) (vals l').
Proof.
  induction ops as [|o ops IH]; intros c l HI Hmax Hf Hb; cbn [lops_run].
  - exists c, l, []. split; [done|]. split; [done|]. split; [done|]. split; [constructor|done].
  - assert (K : exists c1 l1 out, lop_run fuel c o = LOk (c1, out) /\ CInv c1 l1 /\ c_max c1 = c_max c /\
      (length l1 <= S (length l))%nat /\ ideal_step (c_max c) (vals l) o (vals l1) out).
    { destruct o as [s|g]; cbn [lop_run].
      - destruct (lru_get_ok c l s HI) as [(Hin & c1 & l1 & g & -> & Hg & _ & HI1 & Hm & Hfr & _)|(Hn & ->)]; cbn [lbind fst snd option_map].
        + exists c1, l1, (Some (g_val g)). split; [done|]. split; [done|]. split; [done|]. split.
          * assert (length (vals l1) = length (vals l)) as E.
            { destruct Hfr as (x & y & -> & _ & ->). cbn [length]. rewrite !app_length. cbn. lia. }
            unfold vals in E. rewrite !map_length in E. lia.
          * rewrite Hg. by constructor.
        + exists c, l, None. split; [done|]. split; [done|]. split; [done|]. split; [lia|]. by constructor.
      - destruct (lru_set_ok fuel c l g HI Hmax ltac:(lia)) as (c1 & l1 & -> & HI1 & Hm & Hlen & Hst & _). cbn [lbind].
        eauto 10. }
    destruct K as (c1 & l1 & out & -> & HI1 & Hm & Hlen & Hst). cbn [lbind fst snd].
    destruct (IH c1 l1 HI1) as (c2 & l2 & outs & -> & HI2 & Hm2 & Hrun & Hb2).
    { lia. } { cbn [length] in Hf. lia. } { rewrite Hm. by eapply size_bound_step. }
    cbn [lbind fst snd]. rewrite Hm in *. exists c2, l2, (out :: outs). split; [done|]. split; [done|]. split; [done|].
    split; [by econstructor|done].
Qed.

Lemma lru_refines limit ops fuel : 0 < limit -> (length ops <= fuel)%nat ->
  exists c outs l, lops_run fuel (new_lru limit) ops = LOk (c, outs) /\ ideal_run limit [] ops l outs /\
    (forall s, is_Some (c_values c !! s) <-> s ∈ l) /\
    NoDup l /\ lru_count c = Z.of_nat (length l) /\ lru_size c = accounted l /\
    (l = [] \/ exists s, s ∈ l /\ lru_size c < limit + Z.of_nat (length s) + 56).
Proof.
  intros Hl Hf. destruct (lops_ok fuel ops (new_lru limit) [] (CInv_new limit) Hl ltac:(cbn; lia) ltac:(by left))
    as (c & l & outs & E & HI & Hm & Hrun & Hb). exists c, outs, (vals l). split; [done|]. split; [done|].
  split; [intros s; by apply CInv_values_dom|]. pose proof HI as (_ & Hnd & _ & Hsz & Hcnt & _).
  split; [done|]. split; [unfold lru_count, vals; by rewrite map_length|]. split; [done|].
  rewrite Hsz. exact Hb.
Qed.

(** The ideal run is unique: the outputs are determined. *)
Lemma evicted_unique limit l p q : evicted limit l p -> evicted limit l q -> p = q.
Proof.
  intros (P1 & P2 & P3) (Q1 & Q2 & Q3). apply (anti_symm prefix); auto.
Qed.
Lemma to_front_unique s l a b : to_front s l a -> to_front s l b -> a = b.
Proof.
  intros (l1 & l2 & E1 & N1 & ->) (k1 & k2 & E2 & N2 & ->). rewrite E1 in E2.
  assert (H : l1 = k1 /\ l2 = k2); [|by destruct H as [-> ->]].
  clear E1. revert k1 N2 E2. induction l1 as [|x l1 IH]; intros [|y k1] N2 E2; cbn in E2.
  - by injection E2 as ->.
  - injection E2 as <- _. exfalso. apply N2. by left.
  - injection E2 as -> _. exfalso. apply N1. by left.
  - injection E2 as <- E2. apply not_elem_of_cons in N1 as [_ N1]. apply not_elem_of_cons in N2 as [_ N2].
    destruct (IH N1 k1 N2 E2) as [-> ->]. done.
Qed.
Lemma to_front_in s l a : to_front s l a -> s ∈ l.
Proof. intros (l1 & l2 & -> & _). apply elem_of_app. right. by left. Qed.

Lemma ideal_step_det limit l o a x b y : ideal_step limit l o a x -> ideal_step limit l o b y -> a = b /\ x = y.
Proof.
  intros H1 H2. destruct H1; inversion H2; subst;
    repeat match goal with H : to_front _ _ _ |- _ => pose proof (to_front_in _ _ _ H); revert H end; intros;
    try done; split; try done; eauto using to_front_unique; f_equal; eauto using evicted_unique.
Qed.

(** The eviction loop never ends when the limit is not positive and the cache is empty, or becomes so. *)
Lemma ensure_hangs limit : limit <= 0 -> forall fuel c l, CInv c l -> c_max c = limit -> ensure_cache_size fuel c = LHang.
Proof.
  intros Hl. induction fuel as [|fuel IH]; intros c l HI Hm; cbn [ensure_cache_size].
  - pose proof HI as (_ & _ & _ & Hsz & _). pose proof (accounted_nonneg (vals l)). replace (c_max c <=? lru_size c) with true by lia. done.
  - pose proof HI as (HL & Hnv & Hv & Hsz & Hcnt & Hfr). pose proof (accounted_nonneg (vals l)).
    replace (c_max c <=? lru_size c) with true by lia.
    destruct l as [|[p g] l _] using rev_ind.
    + rewrite (drop_tail_nil _ HL). cbn [lbind fst snd]. apply (IH _ []); [|done]. by destruct c.
    + destruct (drop_tail_snoc _ _ _ _ HL) as (L & a & b & -> & HL' & Hn). cbn [lbind fst snd].
      unfold load. rewrite Hn. cbn [lbind n_val]. apply (IH _ l); [|done].
      rewrite vals_app in Hnv. apply NoDup_app in Hnv as (Hnv1 & Hnv2 & _).
      assert (Hgl : g_val g ∉ vals l). { intros Hin. apply (Hnv2 _ Hin). by left. }
      split; [by destruct L|]. split; [done|]. split; [|split; [|split]].
      * intros s q. cbn [c_values with_list]. rewrite lookup_delete_Some, Hv. split.
        -- intros [Hne (g' & Hin & Hg')]. apply elem_of_app in Hin as [Hin|Hin]; [eauto|].
           apply elem_of_list_singleton in Hin as [= -> ->]. done.
        -- intros (g' & Hin & <-). split.
           ++ intros E. apply Hgl. rewrite E. apply elem_vals. eauto.
           ++ exists g'. split; [|done]. apply elem_of_app. by left.
      * unfold lru_size; cbn [c_size c_count with_list]. unfold lru_size, item_overhead in *. rewrite vals_app, accounted_app in Hsz.
        cbn [vals map snd accounted] in Hsz. fold (vals l) in Hsz. lia.
      * cbn [c_count with_list]. rewrite app_length in Hcnt. cbn in Hcnt. lia.
      * intros q Hq. cbn [c_fresh with_list]. apply Hfr. rewrite fmap_app. apply elem_of_app. by left.
Qed.

Lemma set_returns limit ops fuel c outs g : 0 < limit ->
  lops_run fuel (new_lru limit) ops = LOk (c, outs) -> (length ops <= fuel)%nat ->
  exists n, forall fuel', (n <= fuel')%nat -> exists c', lru_set fuel' c g = LOk c'.
Proof.
  intros Hl E Hf. destruct (lops_ok fuel ops (new_lru limit) [] (CInv_new limit) Hl ltac:(cbn; lia) ltac:(by left))
    as (c1 & l & outs1 & E1 & HI & Hm & _). rewrite E in E1. injection E1 as <- <-.
  exists (length l). intros fuel' Hf'. destruct (lru_set_ok fuel' c l g HI) as (c' & _ & H & _); [rewrite Hm; done|done|]. eauto.
Qed.

Lemma set_hangs limit g fuel : limit <= 0 -> lru_set fuel (new_lru limit) g = LHang.
Proof.
  intros H. unfold lru_set. cbn [new_lru c_values]. rewrite lookup_empty.
  rewrite (ensure_hangs limit H fuel (new_lru limit) []); [done|apply CInv_new|done].
Qed.
