(** Objects of pools are used between Get and Put only (C93). *)
From Verif Require Import Base RaceSpec RaceProofs RaceModel RaceTheorems RaceSteps RaceAll RacePoolSpec.
Local Open Scope nat_scope.
Implicit Types (tr : log) (o : place -> stat) (s : state) (h : hold).

Definition in_pool s (p : place) : Prop :=
  match p with LPooled n => n ∈ map fst (s_pool s) | LEncoder n => n ∈ map e_id (s_encs s) | _ => False end.
Definition in_hand s (u : thread) (p : place) : Prop :=
  match p with LPooled n => n ∈ w_pool (s_work s u) | LEncoder n => u = TSender /\ exists m e msg, s_send s = SEnc m e msg /\ e_id e = n | _ => False end.

Definition kept tr s : Prop := forall i t p, tr !! i = Some (t, APut p) -> in_pool s p \/ exists k u, i < k /\ tr !! k = Some (u, AGet p) /\ in_hand s u p.

Lemma pool_status tr o s p : good tr o s -> in_pool s p -> o p = Owned (HP p).
Proof.
  intros G Hp. apply (gd_has _ _ _ G). destruct p; try done; cbn in Hp; apply elem_of_list_fmap in Hp as (y & -> & Hy).
  - left. destruct y as [n refs]. by exists n, refs.
  - right. exists y. split; [done|]. split; [done|]. by cbn.
Qed.
Lemma hand_status tr o s u p : good tr o s -> in_hand s u p -> o p = Owned (HT u).
Proof.
  intros G Hp. apply (gd_has _ _ _ G). destruct p; try done; cbn in Hp.
  - right. left. by apply elem_of_list_fmap_1.
  - destruct Hp as (-> & m & e & msg & Es & <-). eapply sends_has; [done|done|]. left. by cbn.
Qed.

Lemma step_touch k e tr o s l s' t a p : good tr o s -> step k e s = Some (l, s') -> (t, a) ∈ l -> touches a p -> o p = Owned (HT t) \/ o p = Shared \/ o p = Fresh.
Proof.
  intros G H Hl Ht.
  assert (C : forall c (own : list place) s1, (l, s') = send t c own s1 -> False).
  { intros c own s1 [= -> _]. apply elem_of_list_singleton in Hl as [= ->]. by destruct Ht as [|[|]]. }
  assert (Acc : forall u x w, (t, a) ∈ access u x w -> t = u /\ p = x).
  { intros u x w Hx. unfold access in Hx. apply elem_of_list_singleton in Hx as [= -> ->]. destruct w; destruct Ht as [|[|]]; split; congruence. }
  assert (Use : forall u x w s1, Some (access u x w, s1) = Some (l, s') -> has (counts tr) s (HT u) x \/ refers (counts tr) s (HT u) x \/ address x = Some (s_next s) ->
    o p = Owned (HT t) \/ o p = Shared \/ o p = Fresh).
  { intros u x w s1 [= <- _] Hx. destruct (Acc _ _ _ Hl) as [-> ->]. destruct Hx as [Hx|[Hx|Hx]].
    - left. by apply (gd_has _ _ _ G).
    - right. left. by apply (gd_refs _ _ _ G) in Hx as [? _].
    - right. right. by apply (gd_fresh _ _ _ G _ (s_next s)). }
  assert (Syn : forall u b s1, Some ([(u, b)], s1) = Some (l, s') -> (forall x, b <> ARead x) -> (forall x, b <> AWrite x) -> (forall x, b <> APut x) -> False).
  { intros u b s1 [= <- _] N1 N2 N3. apply elem_of_list_singleton in Hl as [= -> ->]. destruct Ht as [->|[->| ->]]; [by eapply N1|by eapply N2|by eapply N3]. }
  assert (Nil : forall s1, Some ([], s1) = Some (l, s') -> False).
  { intros s1 [= <- _]. by apply elem_of_nil in Hl. }
  destruct e; cbn [step] in H; unfold send in H;
    repeat match type of H with
    | (if ?c then _ else _) = Some _ => destruct c eqn:?; try done
    | context [match ?c with _ => _ end] => destruct c eqn:?; try done
    end;
    try (exfalso; by eapply Nil); try (exfalso; by eapply Syn);
    try (by eapply Use; [exact H|]; right; right).
  all: try (eapply Use; [exact H|]).
  - right. left. left. done.
  - left. left. by exists m.
  - left. right. left. by apply elem_of_list_fmap_1.
  - injection H as <- _. apply elem_of_list_singleton in Hl as [= -> ->]. destruct Ht as [|[|[= <-]]]; [done|done|]. left. apply (gd_has _ _ _ G). right. left. by apply elem_of_list_fmap_1.
  - left. right. right. left. apply elem_of_list_fmap_1. apply elem_of_app. by right.
  - left. eapply sends_has; [done|done|]. left. by cbn.
  - left. do 3 right. left. split; [done|]. rewrite Heqs0. left. by exists n.
  - left. eapply sends_has; [done|done|]. left. cbn [enc_has]. destruct slices; [by right|by left].
  - injection H as <- _. apply elem_of_list_singleton in Hl as [= -> ->]. destruct Ht as [|[|[= <-]]]; [done|done|]. left. apply (gd_has _ _ _ G). eapply sends_has; [done|done|]. left. by cbn.
  - left. do 4 right. by left.
  - left. do 5 right. left. split; [done|]. by rewrite Heqf.
  - left. by do 6 right.
Qed.

Definition steady s s' : Prop := (forall p, in_pool s p -> in_pool s' p) /\ (forall u p, in_hand s u p -> in_hand s' u p).
Definition pooling (e : event) : bool := match e with EPoolGet _ _ | EPoolPut _ _ | EEncGet _ | EEncPut => true | _ => false end.
Lemma steady_work s s' : s_pool s' = s_pool s -> s_encs s' = s_encs s -> s_send s' = s_send s -> (forall u, w_pool (s_work s u) ⊆ w_pool (s_work s' u)) -> steady s s'.
Proof.
  intros E1 E2 E3 Hw. split.
  - intros p. unfold in_pool. by rewrite E1, E2.
  - intros u p. destruct p; cbn [in_hand]; try done; [apply Hw|by rewrite E3].
Qed.
Lemma steady_send s s' : s_pool s' = s_pool s -> s_encs s' = s_encs s -> s_work s' = s_work s ->
  match s_send s with SEnc _ e _ => match s_send s' with SEnc _ e' _ => e_id e' = e_id e | _ => False end | _ => True end -> steady s s'.
Proof.
  intros E1 E2 E3 Hw. split.
  - intros p. unfold in_pool. by rewrite E1, E2.
  - intros u p. destruct p; cbn [in_hand]; try done; [by rewrite E3|]. intros (-> & m & e & msg & Es & <-). split; [done|]. rewrite Es in Hw.
    destruct (s_send s') as [| |m' e' msg'|]; try done. eauto.
Qed.
Lemma step_steady k e s l s' : pooling e = false -> step k e s = Some (l, s') -> steady s s' /\ forall t p, (t, APut p) ∉ l.
Proof.
  intros He H.
  assert (N1 : forall t b (l1 : log), l1 = [(t, b)] -> (forall p, b <> APut p) -> forall u p, (u, APut p) ∉ l1).
  { intros t b l1 -> Hb u p Hl. apply elem_of_list_singleton in Hl. injection Hl as _ E. by eapply Hb. }
  assert (N2 : forall t x w u p, (u, APut p) ∉ access t x w).
  { intros t x w u p Hl. unfold access in Hl. destruct w; by apply elem_of_list_singleton in Hl. }
  destruct e; try done; cbn [step] in H; unfold send in H;
    repeat match type of H with
    | (if ?c then _ else _) = Some _ => destruct c eqn:?; try done
    | context [match ?c with _ => _ end] => destruct c eqn:?; try done
    end; injection H as <- <-; (split; [|try apply N2; try (by eapply N1); try (intros ? ? ?%elem_of_nil; done)]).
  all: try (by split).
  all: try (apply steady_work; [done|done|done|]; intros u; try done; flds; unfold put; case_decide as E; [subst u|done]; flds; intros y Hy; first [done|by right]).
  all: try (apply steady_send; [done|done|done|]; flds; match goal with E : s_send _ = _ |- _ => rewrite E end; try done; flds; repeat match goal with |- context [if ?b then _ else _] => destruct b end; done).
  all: try (apply steady_send; [done|done|done|]; flds; match goal with E : s_send _ = _ |- _ => rewrite E end; try done; by destruct slices).
Qed.

Lemma kept_steady tr l s s' : kept tr s -> steady s s' -> (forall t p, (t, APut p) ∉ l) -> kept (tr ++ l) s'.
Proof.
  intros K [S1 S2] Hl i t p Hi. apply lookup_app_Some in Hi as [Hi|[_ Hi]]; [|by apply elem_of_list_lookup_2, Hl in Hi].
  destruct (K i t p Hi) as [Hp|(k & u & Hk & Eu & Hu)]; [left; by apply S1|]. right. exists k, u. split; [done|]. split; [by apply lookup_app_l_Some|by apply S2].
Qed.

(** An object is taken out of a pool. *)
Lemma kept_get tr s s' t p : kept tr s -> (forall q, in_pool s q -> q = p \/ in_pool s' q) -> (forall u q, in_hand s u q -> in_hand s' u q) -> in_hand s' t p ->
  kept (tr ++ [(t, AGet p)]) s'.
Proof.
  intros K S1 S2 Hp i u q Hi. apply lookup_app_Some in Hi as [Hi|[_ Hi]]; [|by apply list_lookup_singleton_Some in Hi as [_ ?]].
  destruct (K i u q Hi) as [Hq|(k & v & Hk & Ev & Hv)].
  - destruct (S1 q Hq) as [->|Hq']; [right|by left]. exists (length tr), t. split; [by eapply lookup_lt_Some|]. split; [|done].
    rewrite lookup_app_r by lia. by rewrite Nat.sub_diag.
  - right. exists k, v. split; [done|]. split; [by apply lookup_app_l_Some|by apply S2].
Qed.
(** An object is put back. *)
Lemma kept_put tr s s' t p : kept tr s -> (forall q, in_pool s q -> in_pool s' q) -> (forall u q, in_hand s u q -> q = p \/ in_hand s' u q) -> in_pool s' p ->
  kept (tr ++ [(t, APut p)]) s'.
Proof.
  intros K S1 S2 Hp i u q Hi. apply lookup_app_Some in Hi as [Hi|[_ Hi]]; [|apply list_lookup_singleton_Some in Hi as [_ [= _ <-]]; by left].
  destruct (K i u q Hi) as [Hq|(k & v & Hk & Ev & Hv)]; [left; by apply S1|].
  destruct (S2 v q Hv) as [->|Hv']; [by left|]. right. exists k, v. split; [done|]. split; [by apply lookup_app_l_Some|done].
Qed.

Lemma kept_step k e tr s l s' : kept tr s -> step k e s = Some (l, s') -> kept (tr ++ l) s'.
Proof.
  intros K H. destruct (pooling e) eqn:He; [|destruct (step_steady _ _ _ _ _ He H); by eapply kept_steady].
  destruct e; try done; cbn [step] in H.
  - destruct (is_worker t); [|done]. destruct (s_pool s !! i) as [[p refs]|] eqn:Ei; [|done]. injection H as <- <-.
    destruct (delete_split _ _ _ Ei) as (l1 & l2 & E1 & E2). apply (kept_get _ s); [done| | |].
    + intros q Hq. destruct q; try done; cbn [in_pool] in *; flds; try (by right). rewrite E2. rewrite E1, map_app in Hq. rewrite map_app. cbn [map fst] in Hq.
      apply elem_of_app in Hq as [Hq|[->|Hq]%elem_of_cons]; [right; apply elem_of_app; by left|by left|right; apply elem_of_app; by right].
    + intros u q Hq. destruct q; try done; cbn [in_hand] in *; flds; try done. unfold put. case_decide as E; [subst u|done]. by right.
    + cbn. rewrite put_same. by left.
  - destruct (decide (p ∈ w_pool (s_work s t))) as [Hp|]; [|done]. injection H as <- <-. apply (kept_put _ s); [done| | |].
    + intros q Hq. destruct q; try done; cbn [in_pool] in *; flds; try done. rewrite map_app. apply elem_of_app. by left.
    + intros u q Hq. destruct q; try done; cbn [in_hand] in *; flds; try (by right). unfold put. case_decide as E; [subst u|by right]. flds.
      destruct (decide (n = p)) as [->|Hn]; [by left|]. right. by apply elem_of_list_filter.
    + cbn. rewrite map_app. apply elem_of_app. right. by left.
  - destruct (s_send s) as [|m| |] eqn:Es; try done. destruct (s_encs s !! i) as [e|] eqn:Ei; [|done]. injection H as <- <-.
    destruct (delete_split _ _ _ Ei) as (l1 & l2 & E1 & E2). apply (kept_get _ s); [done| | |].
    + intros q Hq. destruct q; try done; cbn [in_pool] in *; flds; try (by right). rewrite E2. rewrite E1, map_app in Hq. rewrite map_app. cbn [map] in Hq.
      apply elem_of_app in Hq as [Hq|[->|Hq]%elem_of_cons]; [right; apply elem_of_app; by left|by left|right; apply elem_of_app; by right].
    + intros u q Hq. destruct q; try done; cbn [in_hand] in *; flds; try done. destruct Hq as (_ & m' & e' & msg & E & _). by rewrite Es in E.
    + cbn. split; [done|]. by exists m, e, [].
  - destruct (s_send s) as [| |m e msg|] eqn:Es; try done. injection H as <- <-. apply (kept_put _ s); [done| | |].
    + intros q Hq. destruct q; try done; cbn [in_pool] in *; flds; try done. rewrite map_app. apply elem_of_app. by left.
    + intros u q Hq. destruct q; try done; cbn [in_hand] in *; flds; try (by right). destruct Hq as (_ & m' & e' & msg' & E & <-). rewrite Es in E. injection E as <- <- <-. by left.
    + cbn. rewrite map_app. apply elem_of_app. right. by left.
Qed.

Lemma step_short k e s l s' : step k e s = Some (l, s') -> length l <= 1.
Proof.
  intros H. destruct e; cbn [step] in H; unfold send, access in H;
    repeat match type of H with
    | (if ?c then _ else _) = Some _ => destruct c eqn:?; try done
    | context [match ?c with _ => _ end] => destruct c eqn:?; try done
    end; injection H as <- _; cbn [length]; lia.
Qed.

Lemma respected_step k e tr o s l s' : good tr o s -> kept tr s -> pools_respected tr -> step k e s = Some (l, s') -> pools_respected (tr ++ l).
Proof.
  intros G K R H i j t u p a Hij Hi Hj Ha. pose proof (step_short _ _ _ _ _ H) as Hlen.
  apply lookup_app_Some in Hj as [Hj|[Hge Hj]].
  - assert (i < length tr) by (apply lookup_lt_Some in Hj; lia). rewrite lookup_app_l in Hi by done. destruct (R i j t u p a Hij Hi Hj Ha) as (n & H1 & H2 & H3).
    exists n. split; [done|]. split; [done|]. by apply lookup_app_l_Some.
  - pose proof (lookup_lt_Some _ _ _ Hj) as Hlt. rewrite lookup_app_l in Hi by lia.
    pose proof (step_touch _ _ _ _ _ _ _ _ _ _ G H (elem_of_list_lookup_2 _ _ _ Hj) Ha) as Ho.
    destruct (K i t p Hi) as [Hp|(n & v & H1 & H2 & Hv)].
    + apply (pool_status _ _ _ _ G) in Hp. rewrite Hp in Ho. by destruct Ho as [|[|]].
    + apply (hand_status _ _ _ _ _ G) in Hv. rewrite Hv in Ho. destruct Ho as [[= ->]|[|]]; try done. exists n. split; [done|]. split; [apply lookup_lt_Some in H2; lia|by apply lookup_app_l_Some].
Qed.

Lemma run_respected k evs tr o s l s' : good tr o s -> kept tr s -> pools_respected tr -> run k evs s = Some (l, s') -> pools_respected (tr ++ l).
Proof.
  revert tr o s l. induction evs as [|e evs IH]; intros tr o s l G K R H; cbn [run] in H.
  - injection H as <- <-. by rewrite app_nil_r.
  - destruct (step k e s) as [[l1 s1]|] eqn:E1; [|done]. destruct (run k evs s1) as [[l2 s2]|] eqn:E2; [|done]. injection H as <- <-.
    destruct (step_good k e _ _ _ _ _ G E1) as (o1 & G1). rewrite app_assoc. eapply IH; [exact G1|by eapply kept_step|by eapply respected_step|exact E2].
Qed.
Lemma pools_ok k evs l s : run k evs init = Some (l, s) -> pools_respected l.
Proof. intros H. eapply (run_respected k evs [] o_init init l s init_good); [|by intros i j t u p a _ Hi|exact H]. by intros i t p Hi. Qed.
