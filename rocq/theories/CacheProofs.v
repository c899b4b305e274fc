(** Lemmas about the shared intern cache. *)
From Verif Require Import Base LruModel LruSpec LruProofs.

(** String memory [m] holds [v] and is never written again. *)
Definition stable (w : world) (m : nat) (v : bytes) : Prop := w_mem w !! m = Some v /\ m ∉ w_bufs w.

Definition WInv (limit : Z) (n : nat) (w : world) : Prop :=
  (exists l, CInv (w_cache w) l /\ c_max (w_cache w) = limit /\ (length l <= n)%nat /\
     forall g, g ∈ l.*2 -> stable w (g_ref g) (g_val g)) /\
  (forall m, is_Some (w_mem w !! m) -> (m < w_next w)%nat) /\
  (forall b, b ∈ w_bufs w -> (b < w_next w)%nat) /\
  (forall tid r c, w_pending w !! tid = Some (r, c) -> is_Some (w_mem w !! r) /\ (c = false -> r ∉ w_bufs w)).

Definition good_ret (w : world) (r : ret) : Prop :=
  match r_result r with None => r_asked r = [] | Some m => stable w m (r_asked r) end.

Lemma WInv_new limit : WInv limit 0 (new_world limit).
Proof.
  split; [|split; [|split]].
  - exists []. split; [apply CInv_new|]. split; [done|]. split; [done|]. by intros g ?%elem_of_nil.
  - intros m [? H]. cbn in H. by rewrite lookup_empty in H.
  - intros b. cbn. set_solver.
  - intros tid r c H. cbn in H. by rewrite lookup_empty in H.
Qed.

(** What a step does to the memory: nothing stable is changed. *)
Definition keeps (w w' : world) : Prop := forall m v, stable w m v -> stable w' m v.

Lemma wstep_ok limit n fuel w s : 0 < limit -> (n <= fuel)%nat -> WInv limit n w ->
  match wstep_run fuel w s with
  | None => True
  | Some (LOk (w', o)) => WInv limit (S n) w' /\ keeps w w' /\ Forall (good_ret w') o
  | Some LPanic => False
  | Some LHang => False
  end.
Proof.
  intros Hlim Hf ((l & HI & Hmax & Hlen & Hst) & Hmem & Hbuf & Hpen). destruct s as [bs|bs|r bs|tid r copy|tid]; cbn [wstep_run].
  - (* NewBuf *)
    assert (K : keeps w (World (<[w_next w := bs]> (w_mem w)) (S (w_next w)) ({[w_next w]} ∪ w_bufs w) (w_cache w) (w_pending w))).
    { intros m v [A B]. assert (m < w_next w)%nat by (apply Hmem; rewrite A; eauto).
      split; cbn [w_mem w_bufs]; [rewrite lookup_insert_ne by lia; done|].
      intros [->%elem_of_singleton|H1]%elem_of_union; [lia|done]. }
    split; [|split; [done|constructor]].
    split; [|split; [|split]]; cbn [w_cache w_mem w_bufs w_pending w_next].
    + exists l. split; [done|]. split; [done|]. split; [lia|]. intros g Hg. by apply K, Hst.
    + intros m [x H]. destruct (decide (m = w_next w)) as [->|Hne]; [lia|]. rewrite lookup_insert_ne in H by done.
      assert (m < w_next w)%nat by (apply Hmem; eauto). lia.
    + intros b [->%elem_of_singleton|H1]%elem_of_union; [lia|]. apply Hbuf in H1. lia.
    + intros t r c H. destruct (Hpen _ _ _ H) as [H1 H2]. pose proof (Hmem _ H1). split; [rewrite lookup_insert_ne by lia; done|].
      intros Hc [->%elem_of_singleton|H3]%elem_of_union; [lia|]. by apply H2 in Hc.
  - (* NewStr *)
    assert (K : keeps w (World (<[w_next w := bs]> (w_mem w)) (S (w_next w)) (w_bufs w) (w_cache w) (w_pending w))).
    { intros m v [A B]. assert (m < w_next w)%nat by (apply Hmem; rewrite A; eauto).
      split; cbn [w_mem w_bufs]; [rewrite lookup_insert_ne by lia; done|done]. }
    split; [|split; [done|constructor]].
    split; [|split; [|split]]; cbn [w_cache w_mem w_bufs w_pending w_next].
    + exists l. split; [done|]. split; [done|]. split; [lia|]. intros g Hg. by apply K, Hst.
    + intros m [x H]. destruct (decide (m = w_next w)) as [->|Hne]; [lia|]. rewrite lookup_insert_ne in H by done.
      assert (m < w_next w)%nat by (apply Hmem; eauto). lia.
    + intros b H1. apply Hbuf in H1. lia.
    + intros t r c H. destruct (Hpen _ _ _ H) as [H1 H2]. pose proof (Hmem _ H1). split; [rewrite lookup_insert_ne by lia; done|done].
  - (* Overwrite *)
    destruct (decide _) as [[Hr Hp]|]; [|done].
    assert (K : keeps w (World (<[r := bs]> (w_mem w)) (w_next w) (w_bufs w) (w_cache w) (w_pending w))).
    { intros m v [A B]. split; cbn [w_mem w_bufs]; [rewrite lookup_insert_ne; [done|]; intros ->; done|done]. }
    split; [|split; [done|constructor]].
    split; [|split; [|split]]; cbn [w_cache w_mem w_bufs w_pending w_next].
    + exists l. split; [done|]. split; [done|]. split; [lia|]. intros g Hg. by apply K, Hst.
    + intros m [x H]. destruct (decide (m = r)) as [->|Hne]; [by apply Hbuf|]. rewrite lookup_insert_ne in H by done. apply Hmem; eauto.
    + done.
    + intros t r' c H. destruct (Hpen _ _ _ H) as [H1 H2]. split; [|done]. apply (Hp t) in H. cbn in H. by rewrite lookup_insert_ne.
  - (* LookupGet *)
    destruct (decide _) as [[Hno Hc]|]; [|done]. destruct (w_mem w !! r) as [v|] eqn:Er; [|done].
    assert (Hid : WInv limit (S n) w).
    { split; [|done]. exists l. split; [done|]. split; [done|]. split; [lia|]. done. }
    destruct v as [|b v].
    { split; [done|]. split; [by intros ???|]. constructor; [done|constructor]. }
    destruct (lru_get_ok _ _ (b :: v) HI) as [(Hin & c' & l' & g & E & Hg & Hgl & HI' & Hm' & Hfr & Hsub)|(Hn & E)]; rewrite E; cbn [lbind fst snd].
    + split; [|split].
      * split; [|done]. exists l'. split; [done|]. split; [cbn; congruence|]. split.
        { assert (length (vals l') = length (vals l)) as El.
          { destruct Hfr as (x & y & -> & _ & ->). cbn [length]. rewrite !app_length. cbn. lia. }
          unfold vals in El. rewrite !map_length in El. lia. }
        intros x Hx. apply Hst. by apply Hsub.
      * intros m v' H. exact H.
      * constructor; [|constructor]. unfold good_ret; cbn [r_result r_asked]. rewrite <- Hg. by apply Hst.
    + split; [|split; [|constructor]].
      * split; [|split; [done|split; [done|]]].
        { exists l. split; [done|]. split; [done|]. split; [lia|]. exact Hst. }
        cbn [w_mem w_bufs w_pending w_next]. intros t r' c. destruct (decide (t = tid)) as [->|Hne].
        -- rewrite lookup_insert. intros [= <- <-]. rewrite Er. split; [eauto|]. intros Hf'. rewrite Hf' in Hc. destruct Hc; done.
        -- rewrite lookup_insert_ne by done. apply Hpen.
      * intros m v' H. exact H.
  - (* LookupSet *)
    destruct (w_pending w !! tid) as [[r copy]|] eqn:Ep; [|done]. destruct (w_mem w !! r) as [v|] eqn:Er; [|done].
    destruct (Hpen _ _ _ Ep) as [_ Hnb].
    assert (K : exists mem next key, (if copy then (<[w_next w := v]> (w_mem w), S (w_next w), w_next w) else (w_mem w, w_next w, r)) = (mem, next, key) /\
       (forall m v', stable w m v' -> mem !! m = Some v') /\ mem !! key = Some v /\ key ∉ w_bufs w /\ (w_next w <= next)%nat /\
       (forall m, is_Some (mem !! m) -> (m < next)%nat) /\ (forall m, is_Some (w_mem w !! m) -> is_Some (mem !! m))).
    { destruct copy.
      - exists (<[w_next w := v]> (w_mem w)), (S (w_next w)), (w_next w). split; [done|]. split; [|split; [|split; [|split; [|split]]]].
        + intros m v' [A B]. assert (m < w_next w)%nat by (apply Hmem; rewrite A; eauto). rewrite lookup_insert_ne by lia. done.
        + apply lookup_insert.
        + intros H%Hbuf. lia.
        + lia.
        + intros m [x H]. destruct (decide (m = w_next w)) as [->|Hne]; [lia|]. rewrite lookup_insert_ne in H by done.
          assert (m < w_next w)%nat by (apply Hmem; eauto). lia.
        + intros m H. pose proof (Hmem _ H). rewrite lookup_insert_ne by lia. done.
      - exists (w_mem w), (w_next w), r. split; [done|]. split; [by intros m v' [A B]|]. split; [done|]. split; [auto|]. split; [lia|]. split; [done|]. done. }
    destruct K as (mem & next & key & -> & K1 & K2 & K3 & K4 & K5 & K6).
    destruct (lru_set_ok fuel _ l (GStr key v) HI) as (c' & l' & -> & HI' & Hm' & Hlen' & _ & Hsub); [lia|lia|]. cbn [lbind].
    set (w' := World _ _ _ _ _).
    assert (K : keeps w w'). { intros m v' H. split; [by apply K1|]. apply H. }
    split; [|split; [done|]].
    + split; [|split; [done|split]].
      * exists l'. split; [done|]. split; [cbn; congruence|]. split; [lia|]. intros g Hg. apply Hsub in Hg as [->|Hg]; [done|]. apply K. by apply Hst.
      * cbn. intros b H%Hbuf. lia.
      * cbn. intros t r' c. rewrite lookup_delete_Some. intros [_ H]. apply Hpen in H as [H1 H2]. split; [by apply K6|done].
    + constructor; [done|constructor].
Qed.

Lemma wrun_ok limit fuel : 0 < limit -> forall l n w, (n + length l <= fuel)%nat -> WInv limit n w ->
  match wrun fuel w l with
  | None => True
  | Some (LOk (w', o)) => WInv limit (n + length l) w' /\ keeps w w' /\ Forall (good_ret w') o
  | Some LPanic => False
  | Some LHang => False
  end.
Proof.
  intros Hlim. induction l as [|s l IH]; intros n w Hf HW; cbn [wrun].
  - rewrite Nat.add_0_r. split; [done|]. split; [by intros ???|constructor].
  - cbn [length] in Hf. pose proof (wstep_ok limit n fuel w s Hlim ltac:(lia) HW) as H1.
    destruct (wstep_run fuel w s) as [[[w1 o1]| |]|]; try done. destruct H1 as (HW1 & HK1 & HG1).
    specialize (IH (S n) w1 ltac:(lia) HW1). destruct (wrun fuel w1 l) as [[[w2 o2]| |]|]; try done.
    destruct IH as (HW2 & HK2 & HG2). split; [|split].
    + cbn [length]. by rewrite Nat.add_succ_r.
    + intros m v H. by apply HK2, HK1.
    + apply Forall_app. split; [|done]. eapply Forall_impl; [exact HG1|]. intros r. unfold good_ret. destruct (r_result r); [apply HK2|done].
Qed.

(** A run in two parts. *)
Lemma wrun_app fuel l1 l2 w w1 o1 : wrun fuel w l1 = Some (LOk (w1, o1)) ->
  wrun fuel w (l1 ++ l2) = match wrun fuel w1 l2 with Some (LOk (w2, o2)) => Some (LOk (w2, o1 ++ o2)) | x => x end.
Proof.
  revert w o1. induction l1 as [|s l1 IH]; intros w o1; cbn [wrun app].
  - intros [= -> <-]. by destruct (wrun fuel w1 l2) as [[[]| |]|].
  - destruct (wstep_run fuel w s) as [[[w' o']| |]|]; try done.
    destruct (wrun fuel w' l1) as [[[w'' o'']| |]|] eqn:E; try done. intros [= -> <-].
    rewrite (IH _ _ E). destruct (wrun fuel w1 l2) as [[[w2 o2]| |]|]; try done. by rewrite app_assoc.
Qed.

Lemma interned_forever limit fuel l1 l2 w1 o1 w2 o2 : 0 < limit -> (length l1 + length l2 <= fuel)%nat ->
  wrun fuel (new_world limit) l1 = Some (LOk (w1, o1)) -> wrun fuel w1 l2 = Some (LOk (w2, o2)) ->
  Forall (fun r => match r_result r with None => r_asked r = [] | Some m => w_mem w2 !! m = Some (r_asked r) end) o1.
Proof.
  intros Hl Hf E1 E2. pose proof (wrun_ok limit fuel Hl l1 0 _ ltac:(lia) (WInv_new limit)) as H1. rewrite E1 in H1.
  destruct H1 as (HW1 & _ & HG). pose proof (wrun_ok limit fuel Hl l2 (0 + length l1)%nat w1 ltac:(lia) HW1) as H2. rewrite E2 in H2.
  destruct H2 as (_ & HK & _). eapply Forall_impl; [exact HG|]. intros r. unfold good_ret.
  destruct (r_result r); [|done]. intros H. by apply HK.
Qed.

Lemma lookups_return limit fuel l : 0 < limit -> (length l <= fuel)%nat ->
  wrun fuel (new_world limit) l = None \/ exists w o, wrun fuel (new_world limit) l = Some (LOk (w, o)).
Proof.
  intros Hl Hf. pose proof (wrun_ok limit fuel Hl l 0 _ ltac:(lia) (WInv_new limit)) as H1.
  destruct (wrun fuel (new_world limit) l) as [[[w o]| |]|]; try done; eauto.
Qed.

(** A pending lookup keeps its bytes until it inserts. *)
Lemma pending_step limit n fuel w s w' o tid r c v : 0 < limit -> (n <= fuel)%nat -> WInv limit n w ->
  wstep_run fuel w s = Some (LOk (w', o)) -> s <> LookupSet tid ->
  w_pending w !! tid = Some (r, c) -> w_mem w !! r = Some v -> w_pending w' !! tid = Some (r, c) /\ w_mem w' !! r = Some v.
Proof.
  intros Hlim Hf ((l & HI & Hmax & Hlen & Hst) & Hmem & Hbuf & Hpen) E Hs Hp Hr.
  assert (Hlt : (r < w_next w)%nat) by (apply Hmem; rewrite Hr; eauto).
  destruct s as [bs|bs|r' bs|tid' r' copy|tid']; cbn [wstep_run] in E.
  - injection E as <- <-. cbn. split; [done|]. rewrite lookup_insert_ne by lia. done.
  - injection E as <- <-. cbn. split; [done|]. rewrite lookup_insert_ne by lia. done.
  - destruct (decide _) as [[Hb Hall]|]; [|done]. injection E as <- <-. cbn. split; [done|]. apply Hall in Hp. cbn in Hp.
    by rewrite lookup_insert_ne.
  - destruct (decide _) as [[Hno Hc]|]; [|done]. destruct (w_mem w !! r') as [v'|] eqn:Er; [|done].
    destruct v' as [|b v']. { injection E as <- <-. done. }
    destruct (lru_get_ok _ _ (b :: v') HI) as [(Hin & c' & l' & g & E' & _)|(Hn & E')]; rewrite E' in E; cbn [lbind fst snd] in E;
      injection E as <- <-; cbn; [done|]. split; [|done]. rewrite lookup_insert_ne; [done|]. intros ->. congruence.
  - destruct (w_pending w !! tid') as [[r' copy]|] eqn:Ep; [|done]. destruct (w_mem w !! r') as [v'|] eqn:Er; [|done].
    assert (tid' <> tid) by congruence.
    destruct copy; (destruct (lru_set _ _ _) as [c'| |]; cbn [lbind] in E; try done; injection E as <- <-; cbn;
      rewrite lookup_delete_ne by done; (split; [done|])); [rewrite lookup_insert_ne by lia|]; done.
Qed.

Lemma pending_run limit fuel tid r c v : 0 < limit -> forall l n w w' o, (n + length l <= fuel)%nat -> WInv limit n w ->
  wrun fuel w l = Some (LOk (w', o)) -> LookupSet tid ∉ l ->
  w_pending w !! tid = Some (r, c) -> w_mem w !! r = Some v -> w_pending w' !! tid = Some (r, c) /\ w_mem w' !! r = Some v.
Proof.
  intros Hlim. induction l as [|s l IH]; intros n w w' o Hf HW E Hs Hp Hr; cbn [wrun] in E.
  - by injection E as <- <-.
  - cbn [length] in Hf. apply not_elem_of_cons in Hs as [Hs1 Hs2].
    pose proof (wstep_ok limit n fuel w s Hlim ltac:(lia) HW) as H1.
    destruct (wstep_run fuel w s) as [[[w1 o1]| |]|] eqn:E1; try done. destruct H1 as (HW1 & _).
    destruct (pending_step limit n fuel w s w1 o1 tid r c v) as [Hp1 Hr1]; [done|lia|done|done|congruence|done|done|].
    destruct (wrun fuel w1 l) as [[[w2 o2]| |]|] eqn:E2; try done. injection E as <- <-.
    eapply (IH (S n) w1 w2 o2); eauto. lia.
Qed.

Lemma lookup_returns_asked limit fuel l0 w0 o0 tid r copy v w1 o1 : 0 < limit ->
  wrun fuel (new_world limit) l0 = Some (LOk (w0, o0)) -> w_mem w0 !! r = Some v ->
  wstep_run fuel w0 (LookupGet tid r copy) = Some (LOk (w1, o1)) ->
  (length l0 < fuel)%nat ->
  (exists res, o1 = [Ret v res] /\ match res with None => v = [] | Some m => w_mem w1 !! m = Some v end) \/
  (o1 = [] /\ forall l w2 o2, wrun fuel w1 l = Some (LOk (w2, o2)) -> LookupSet tid ∉ l -> (length l0 + length l + 2 <= fuel)%nat ->
     exists w3 m, wstep_run fuel w2 (LookupSet tid) = Some (LOk (w3, [Ret v (Some m)])) /\ w_mem w3 !! m = Some v).
Proof.
  intros Hlim E0 Hr E1 Hf. pose proof (wrun_ok limit fuel Hlim l0 0 _ ltac:(lia) (WInv_new limit)) as H0. rewrite E0 in H0.
  destruct H0 as (HW0 & _). cbn in HW0. pose proof (wstep_ok limit (length l0) fuel w0 (LookupGet tid r copy) Hlim ltac:(lia) HW0) as H1. rewrite E1 in H1.
  destruct H1 as (HW1 & HK1 & HG1).
  cbn [wstep_run] in E1. destruct (decide _) as [[Hno Hc]|]; [|done]. rewrite Hr in E1.
  destruct v as [|b v]. { injection E1 as <- <-. left. exists None. done. }
  pose proof HW0 as ((lc & HI & _) & _).
  destruct (lru_get_ok _ _ (b :: v) HI) as [(Hin & c' & l' & g & E & Hg & _)|(Hn & E)]; rewrite E in E1; cbn [lbind fst snd] in E1; injection E1 as E1 <-.
  - left. exists (Some (g_ref g)). split; [done|]. inversion HG1 as [|? ? Hg1 _]; subst. apply Hg1.
  - right. split; [done|]. intros l w2 o2 E2 Hns Hlen.
    destruct (pending_run limit fuel tid r copy (b :: v) Hlim l (S (length l0)) w1 w2 o2) as [Hp2 Hr2]; [lia|done|done|done| | |].
    { subst w1. cbn. apply lookup_insert. } { by subst w1. }
    pose proof (wrun_ok limit fuel Hlim l (S (length l0)) w1 ltac:(clear -Hlen; lia) HW1) as H2. rewrite E2 in H2.
    destruct H2 as (HW2 & _). pose proof (wstep_ok limit (S (length l0) + length l)%nat fuel w2 (LookupSet tid) Hlim ltac:(clear -Hlen; lia) HW2) as H3.
    cbn [wstep_run] in H3 |- *. rewrite Hp2, Hr2 in H3 |- *. destruct copy.
    + destruct (lru_set _ _ _); cbn [lbind] in H3 |- *; try done. do 2 eexists. split; [done|]. cbn. apply lookup_insert.
    + destruct (lru_set _ _ _); cbn [lbind] in H3 |- *; try done. do 2 eexists. split; [done|]. cbn. done.
Qed.
