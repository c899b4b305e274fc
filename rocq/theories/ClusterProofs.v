(** Several proxies with Kafka: origin, accounting and order of the spans. *)
From Verif Require Import Base SpanModel BinaryModel BinarySpec BinaryProofs EncoderModel EncoderProofs PipelineModel ConsumeModel ClusterModel ReplaySpec ReplayProofs ClusterSpec.

(* ---------- runs ---------- *)

Lemma krun_inv cfg (P : kstate -> list kentry -> Prop) :
  (forall e st rec st' l, valid_kevent e -> P st rec -> kstep cfg e st = Next (st', l) -> P st' (rec ++ l)) ->
  forall evs st rec st' rec', Forall valid_kevent evs -> P st rec -> krun cfg evs st rec = Next (st', rec') -> P st' rec'.
Proof.
  intros Hs evs. induction evs as [|e evs IH]; intros st rec st' rec' Hv HP Hr; cbn [krun] in Hr; [by injection Hr as <- <-|].
  apply Forall_cons in Hv as [He Hv]. destruct (kstep cfg e st) as [[st1 l]| |] eqn:E; [|by eapply IH|done].
  eapply IH; [done| |exact Hr]. by eapply Hs.
Qed.

Lemma reached_inv cfg n parts (P : kstate -> list kentry -> Prop) :
  P (kinit n parts) [] ->
  (forall e st rec st' l, valid_kevent e -> P st rec -> kstep cfg e st = Next (st', l) -> P st' (rec ++ l)) ->
  forall evs st rec, reached cfg n parts evs st rec -> P st rec.
Proof. intros H0 Hs evs st rec [Hv Hr]. by eapply krun_inv. Qed.

Lemma encode_msg_some ord s : exists m, encode_msg ord s = Some m.
Proof. unfold encode_msg. destruct (binary_encode_some ord s) as (bs & -> & _). eauto. Qed.

Ltac xcbn := cbn [x_http x_hold x_input x_buffer x_errors x_kafka q_log q_committed q_claim z_proxies z_parts c_owner c_next c_mark c_phase] in *.
Ltac kcases E :=
  repeat (match type of E with
  | match ?x with _ => _ end = _ => let H := fresh "Hc" in destruct x eqn:H
  end; try discriminate E).

Lemma kstep_no_panic cfg e st : kstep cfg e st <> Panicked.
Proof.
  destruct st as [xs qs]. destruct e; cbn [kstep]; intros E; kcases E.
  destruct (encode_msg_some (ord (s_tags s)) s) as [m Hm]. congruence.
Qed.

Lemma krun_no_panic cfg evs st rec : exists st' rec', krun cfg evs st rec = Next (st', rec').
Proof.
  revert st rec. induction evs as [|e evs IH]; intros st rec; cbn [krun]; [eauto|].
  pose proof (kstep_no_panic cfg e st). destruct (kstep cfg e st) as [[st1 l]| |]; [apply IH|apply IH|done].
Qed.

(* ---------- messages ---------- *)

Definition dec (m : kmsg) : option span := match binary_decode (km_val m) with DOk s _ => Some s | DErr _ => None end.
Lemma dec_carries m s : dec m = Some s <-> carries m s.
Proof.
  unfold dec, carries. destruct (binary_decode (km_val m)) as [a r|]; split; try done.
  - intros [= ->]. eauto.
  - intros [r' [= -> _]]. done.
  - by intros [? ?].
Qed.

Definition trace_key (t : Z) : bytes := map (fun k => u64 t / 2^k mod 256) [0; 8; 16; 24; 32; 40; 48; 56].
Lemma trace_key_eq t : le_bytes (u64 t) = trace_key t.
Proof.
  unfold le_bytes, trace_key. cbn [map].
  assert (H : forall v k, 0 <= k -> Z.land (Z.shiftr v k) 255 = v / 2^k mod 256).
  { intros v k Hk. change 255 with (Z.ones 8). rewrite Z.land_ones by lia. by rewrite Z.shiftr_div_pow2. }
  by rewrite !H by lia.
Qed.

Definition good (rec : list kentry) (m : kmsg) : Prop :=
  exists s, wire_ok s /\ dec m = Some s /\ km_key m = trace_key (s_trace s) /\ exists i, RPut i s ∈ rec.
Lemma good_mono rec l m : good rec m -> good (rec ++ l) m.
Proof. intros (s & H1 & H2 & H3 & i & H4). exists s. split; [done|]. split; [done|]. split; [done|]. exists i. apply elem_of_app. by left. Qed.

Lemma encode_good rec ord s m : wire_ok s -> iteration_order ord (s_tags s) -> (exists i, RPut i s ∈ rec) -> encode_msg ord s = Some m -> good rec m.
Proof.
  intros Hw Ho Hp E. unfold encode_msg in E. destruct (binary_roundtrip s ord Hw Ho) as (bs & Eb & Hb). rewrite Eb in E. injection E as <-.
  exists s. split; [done|]. split; [|split; [apply trace_key_eq|done]]. unfold dec. cbn [km_val]. specialize (Hb []). rewrite app_nil_r in Hb. by rewrite Hb.
Qed.

Definition xmsgs (x : proxy) : list kmsg := match x_hold x with Some m => [m] | None => [] end ++ x_input x ++ x_buffer x.

Definition inv_good (cfg : kconfig) (st : kstate) (rec : list kentry) : Prop :=
  (forall i x, z_proxies st !! i = Some x -> Forall (fun s => wire_ok s /\ exists j, RPut j s ∈ rec) (x_http x) /\ Forall (good rec) (xmsgs x)) /\
  (forall p q, z_parts st !! p = Some q -> Forall (fun m => good rec m /\ g_part cfg (km_key m) = p) (q_log q)).

Lemma insert_lookup_cases {A} (l : list A) i x j y : <[i := x]> l !! j = Some y -> (j = i /\ y = x /\ is_Some (l !! i)) \/ (j <> i /\ l !! j = Some y).
Proof.
  intros H. apply list_lookup_insert_Some in H as [(-> & -> & Hl)|(Hn & H)]; [left|right]; split; try done. split; [done|]. by apply lookup_lt_is_Some.
Qed.

Lemma remove_elem {A} j (l : list A) x : x ∈ remove j l -> x ∈ l.
Proof.
  unfold remove. rewrite elem_of_app. intros [H|H].
  - rewrite <- (take_drop j l). apply elem_of_app. by left.
  - rewrite <- (take_drop (S j) l). apply elem_of_app. by right.
Qed.

Lemma Forall_remove {A} (P : A -> Prop) j l : Forall P l -> Forall P (remove j l).
Proof. rewrite !Forall_forall. intros H x Hx. apply H. by eapply remove_elem. Qed.

Lemma map_drop_claim i qs p q : map (drop_claim i) qs !! p = Some q -> exists q0, qs !! p = Some q0 /\ q = drop_claim i q0.
Proof.
  change (map (drop_claim i) qs) with (drop_claim i <$> qs). rewrite list_lookup_fmap. destruct (qs !! p) as [q0|]; [|done].
  intros [= <-]. eauto.
Qed.
Lemma drop_claim_log i q : q_log (drop_claim i q) = q_log q.
Proof. unfold drop_claim. destruct (q_claim q); [|done]. by destruct (decide _). Qed.
Lemma drop_claim_committed i q : q_committed (drop_claim i q) = q_committed q.
Proof. unfold drop_claim. destruct (q_claim q); [|done]. by destruct (decide _). Qed.

Lemma inv_good_step cfg e st rec st' l : valid_kevent e -> inv_good cfg st rec -> kstep cfg e st = Next (st', l) -> inv_good cfg st' (rec ++ l).
Proof.
  intros Hv [H1 H2] E. destruct st as [xs qs]. cbn [z_proxies z_parts] in *.
  assert (M1 : forall i x, xs !! i = Some x -> Forall (fun s => wire_ok s /\ exists j, RPut j s ∈ rec ++ l) (x_http x) /\ Forall (good (rec ++ l)) (xmsgs x)).
  { intros i x Hx. destruct (H1 i x Hx) as [A B]. split; eapply Forall_impl; [exact A| |exact B|].
    - intros s [Hw [j Hj]]. split; [done|]. exists j. apply elem_of_app. by left.
    - intros m. apply good_mono. }
  assert (M2 : forall p q, qs !! p = Some q -> Forall (fun m => good (rec ++ l) m /\ g_part cfg (km_key m) = p) (q_log q)).
  { intros p q Hq. eapply Forall_impl; [by apply (H2 p q)|]. intros m [Hg Hp]. split; [by apply good_mono|done]. }
  assert (Q : forall i x' qs', (Forall (fun s => wire_ok s /\ exists j, RPut j s ∈ rec ++ l) (x_http x') /\ Forall (good (rec ++ l)) (xmsgs x')) ->
    (forall p q, qs' !! p = Some q -> Forall (fun m => good (rec ++ l) m /\ g_part cfg (km_key m) = p) (q_log q)) ->
    inv_good cfg (KState (<[i := x']> xs) qs') (rec ++ l)).
  { intros i x' qs' Hx Hq. split; cbn [z_proxies z_parts]; [|done]. intros k y Hk. apply insert_lookup_cases in Hk as [(-> & -> & _)|(_ & Hk)]; [done|by apply (M1 k)]. }
  assert (R : forall p log c c' cl cl', qs !! p = Some (Partition log c cl) -> forall r q, <[p := Partition log c' cl']> qs !! r = Some q -> Forall (fun m => good (rec ++ l) m /\ g_part cfg (km_key m) = r) (q_log q)).
  { intros p log c c' cl cl' Hp r q Hr. apply insert_lookup_cases in Hr as [(-> & -> & _)|(_ & Hr)]; [apply (M2 p _ Hp)|by apply M2]. }
  destruct e; cbn [kstep] in E; kcases E; try (injection E as <- <-); subst; cbn [valid_kevent] in Hv;
    try (apply (Q _ _ _); [|done]); try (split; cbn [z_proxies z_parts]; [done|by eapply R]).
  - destruct (M1 _ _ Hc) as [A B]. cbn in A, B. split; [|done]. cbn. apply Forall_app. split; [done|]. apply Forall_singleton. split; [done|].
    exists i. apply elem_of_app. right. apply elem_of_list_here.
  - destruct (M1 _ _ Hc) as [A B]. unfold xmsgs in B. cbn in A, B. apply Forall_cons in A as [[A1 A2] A]. split; [done|]. unfold xmsgs. cbn. constructor; [|done].
    eapply encode_good; [done|apply Hv|done|done].
  - destruct (M1 _ _ Hc) as [A B]. unfold xmsgs in *. xcbn. split; [done|]. cbn in B. apply Forall_cons in B as [B1 B].
    cbn. apply Forall_app in B as [B2 B3]. rewrite <- app_assoc. apply Forall_app. split; [done|]. apply Forall_app. split; [by apply Forall_singleton|done].
  - destruct (M1 _ _ Hc) as [A B]. unfold xmsgs in *. xcbn. split; [done|].
    apply Forall_app in B as [B1 B]. cbn in B. apply Forall_cons in B as [B2 B]. apply Forall_app. by split.
  - destruct (M1 _ _ Hc) as [A B]. unfold xmsgs in *. xcbn. split; [done|].
    apply Forall_app in B as [B1 B]. cbn in B. apply Forall_cons in B as [B2 B]. apply Forall_app. split; [done|]. rewrite app_assoc. apply Forall_app. split; [done|by apply Forall_singleton].
  - destruct (M1 _ _ Hc) as [A B]. unfold xmsgs in B. xcbn. apply Forall_app in B as [B1 B]. apply Forall_app in B as [B2 B3].
    apply Q.
    + split; [done|]. unfold xmsgs. xcbn. apply Forall_app. split; [done|]. apply Forall_app. split; [done|]. by apply Forall_remove.
    + intros r q Hr. apply insert_lookup_cases in Hr as [(-> & -> & _)|(_ & Hr)]; [|by apply M2]. xcbn. apply Forall_app. split; [by apply (M2 _ _ Hc2)|].
      apply Forall_singleton. split; [|done]. rewrite Forall_forall in B3. apply B3. by eapply elem_of_list_lookup_2.
  - destruct (M1 _ _ Hc) as [A B]. unfold xmsgs in *. xcbn. apply Forall_app in B as [B1 B]. apply Forall_app in B as [B2 B3].
    split; [done|]. apply Forall_app. split; [done|]. apply Forall_app. split; [done|]. by apply Forall_remove.
  - destruct (M1 _ _ Hc) as [A B]. unfold xmsgs in *. xcbn. apply Forall_app in B as [B1 B]. apply Forall_app in B as [B2 B3].
    split; [done|]. apply Forall_app. split; [done|]. apply Forall_app. split; [done|]. by apply Forall_remove.
  - apply Q; [by apply (M1 _ _ Hc4)|]. by eapply R.
  - by apply (M1 _ _ Hc).
  - apply Q; [split; constructor|]. intros r q Hr. apply map_drop_claim in Hr as (q0 & Hr & ->). rewrite drop_claim_log. by apply M2.
Qed.

(* ---------- calls come from the log ---------- *)

Lemma app_snoc_split {A} (l : list A) e r1 x r2 : l ++ [e] = r1 ++ x :: r2 -> (r2 = [] /\ r1 = l /\ x = e) \/ exists r2', r2 = r2' ++ [e] /\ l = r1 ++ x :: r2'.
Proof.
  destruct r2 as [|y r2 _] using rev_ind; intros E.
  - left. apply app_inj_tail in E as [-> ->]. done.
  - right. rewrite app_comm_cons, app_assoc in E. apply app_inj_tail in E as [-> ->]. eauto.
Qed.

Definition in_log (st : kstate) (p o : nat) (s : span) : Prop :=
  exists q m, z_parts st !! p = Some q /\ q_log q !! o = Some m /\ dec m = Some s.

Definition inv_log (st : kstate) (rec : list kentry) : Prop :=
  (forall r1 p o i s r2, rec = r1 ++ RCall p o i s :: r2 -> (exists j, RPut j s ∈ r1) /\ (exists o', ROpen p i o' ∈ r1) /\ in_log st p o s) /\
  (forall p o, RSkip p o ∉ rec) /\
  (forall p q c, z_parts st !! p = Some q -> q_claim q = Some c ->
     (exists o, ROpen p (c_owner c) o ∈ rec) /\ is_Some (z_proxies st !! c_owner c) /\
     (c_phase c = CMarking -> is_Some (q_log q !! c_next c)) /\
     (forall s, c_phase c = CCalling s -> exists m, q_log q !! c_next c = Some m /\ dec m = Some s)).

(** Logs only grow. *)
Lemma kstep_log cfg e st st' l p q : kstep cfg e st = Next (st', l) -> z_parts st !! p = Some q ->
  exists q' ms, z_parts st' !! p = Some q' /\ q_log q' = q_log q ++ ms.
Proof.
  intros E Hq. destruct st as [xs qs]. cbn [z_parts] in Hq.
  assert (Hsame : exists q' ms, qs !! p = Some q' /\ q_log q' = q_log q ++ ms) by (exists q, []; by rewrite app_nil_r).
  assert (Hins : forall r log c cl ms c' cl', qs !! r = Some (Partition log c cl) ->
    exists q' ms', <[r := Partition (log ++ ms) c' cl']> qs !! p = Some q' /\ q_log q' = q_log q ++ ms').
  { intros r log c cl ms c' cl' Hr. destruct (decide (r = p)) as [->|Hn].
    - rewrite list_lookup_insert by (by eapply lookup_lt_Some). eexists _, ms. split; [done|]. rewrite Hq in Hr. by injection Hr as ->.
    - rewrite list_lookup_insert_ne by done. done. }
  assert (Hins' : forall r log c cl c' cl', qs !! r = Some (Partition log c cl) ->
    exists q' ms', <[r := Partition log c' cl']> qs !! p = Some q' /\ q_log q' = q_log q ++ ms').
  { intros r log c cl c' cl' Hr. rewrite <- (app_nil_r log). eapply Hins. exact Hr. }
  destruct e; cbn [kstep] in E; kcases E; try (injection E as <- <-); subst; cbn [z_parts]; try done; try (by eapply Hins'); try (by eapply Hins).
  exists (drop_claim i q), []. rewrite drop_claim_log, app_nil_r. split; [|done].
  change (map (drop_claim i) qs) with (drop_claim i <$> qs). by rewrite list_lookup_fmap, Hq.
Qed.

Lemma kstep_proxies cfg e st st' l i : kstep cfg e st = Next (st', l) -> is_Some (z_proxies st !! i) -> is_Some (z_proxies st' !! i).
Proof.
  intros E Hi. destruct st as [xs qs]. cbn [z_proxies] in *. rewrite lookup_lt_is_Some in Hi.
  destruct e; cbn [kstep] in E; kcases E; try (injection E as <- <-); subst; cbn [z_proxies]; rewrite lookup_lt_is_Some, ?insert_length; done.
Qed.

Lemma in_log_step cfg e st st' l p o s : kstep cfg e st = Next (st', l) -> in_log st p o s -> in_log st' p o s.
Proof.
  intros E (q & m & Hq & Hm & Hs). destruct (kstep_log _ _ _ _ _ _ _ E Hq) as (q' & ms & Hq' & El).
  exists q', m. split; [done|]. split; [|done]. rewrite El. by apply lookup_app_l_Some.
Qed.

(** The record grows by at most one entry. *)
Lemma kstep_rec cfg e st st' l : kstep cfg e st = Next (st', l) -> l = [] \/ exists x, l = [x].
Proof.
  intros E. destruct st as [xs qs]. destruct e; cbn [kstep] in E; kcases E; try (injection E as <- <-); eauto.
Qed.

(** What a step does to the claim of a partition. *)
Lemma kstep_call cfg e st st' p o i s : kstep cfg e st = Next (st', [RCall p o i s]) ->
  exists q c, z_parts st !! p = Some q /\ q_claim q = Some c /\ c_owner c = i /\ c_next c = o /\ c_phase c = CCalling s.
Proof.
  intros E. destruct st as [xs qs]. destruct e; cbn [kstep] in E; kcases E; try discriminate E; try (injection E as <- <- <- <- <-); subst.
  eexists _, _. split; [cbn; exact Hc|]. done.
Qed.
Lemma kstep_skip cfg e st st' p o : kstep cfg e st = Next (st', [RSkip p o]) ->
  exists q m, z_parts st !! p = Some q /\ q_log q !! o = Some m /\ dec m = None.
Proof.
  intros E. destruct st as [xs qs]. destruct e; cbn [kstep] in E; kcases E; try discriminate E; try (injection E as <- <- <-); subst.
  eexists _, _. split; [cbn; exact Hc|]. split; [exact Hc4|]. unfold dec. by rewrite Hc5.
Qed.

Lemma inv_log_step cfg e st rec st' l : inv_good cfg st rec -> inv_log st rec -> kstep cfg e st = Next (st', l) -> inv_log st' (rec ++ l).
Proof.
  intros [G1 G2] (H1 & H2 & H3) E. split; [|split].
  - intros r1 p o i s r2 Er. destruct (kstep_rec _ _ _ _ _ E) as [->|[x ->]].
    + rewrite app_nil_r in Er. destruct (H1 _ _ _ _ _ _ Er) as (A & B & C). split; [done|]. split; [done|]. by eapply in_log_step.
    + apply app_snoc_split in Er as [(-> & -> & <-)|(r2' & -> & Er)].
      * destruct (kstep_call _ _ _ _ _ _ _ _ E) as (q & c & Hq & Hcl & <- & <- & Hph).
        destruct (H3 p q c Hq Hcl) as (A & _ & _ & B). destruct (B s Hph) as (m & Hm & Hs).
        assert (C : in_log st p (c_next c) s) by (by exists q, m). split; [|split; [done|by eapply in_log_step]].
        pose proof (G2 p q Hq) as F. rewrite Forall_forall in F. destruct (F m (elem_of_list_lookup_2 _ _ _ Hm)) as [(s' & _ & Hd & _ & j & Hj) _].
        exists j. congruence.
      * destruct (H1 _ _ _ _ _ _ Er) as (A & B & C). split; [done|]. split; [done|]. by eapply in_log_step.
  - intros p o Hin. apply elem_of_app in Hin as [Hin|Hin]; [by eapply H2|].
    destruct (kstep_rec _ _ _ _ _ E) as [->|[x ->]]; [by apply elem_of_nil in Hin|]. apply elem_of_list_singleton in Hin as <-.
    destruct (kstep_skip _ _ _ _ _ _ E) as (q & m & Hq & Hm & Hd). pose proof (G2 p q Hq) as F. rewrite Forall_forall in F.
    destruct (F m (elem_of_list_lookup_2 _ _ _ Hm)) as [(s' & _ & Hd' & _) _]. congruence.
  - destruct st as [xs qs]. cbn [z_proxies z_parts] in *.
    assert (X : forall i, is_Some (xs !! i) -> is_Some (z_proxies st' !! i)) by (intros i; apply (kstep_proxies _ _ _ _ _ _ E)).
    assert (M : forall p q c, qs !! p = Some q -> q_claim q = Some c ->
      (exists o, ROpen p (c_owner c) o ∈ rec ++ l) /\ is_Some (z_proxies st' !! c_owner c) /\ (c_phase c = CMarking -> is_Some (q_log q !! c_next c)) /\
      (forall s, c_phase c = CCalling s -> exists m, q_log q !! c_next c = Some m /\ dec m = Some s)).
    { intros p q c Hq Hcl. destruct (H3 p q c Hq Hcl) as ((o & A) & B & C). split; [exists o; apply elem_of_app; by left|]. split; [by apply X|done]. }
    destruct e; cbn [kstep] in E; kcases E; try (injection E as <- <-); subst; cbn [z_parts z_proxies] in *; try done.
    all: intros r q cl Hr Hcl; try (apply insert_lookup_cases in Hr as [(-> & -> & _)|(_ & Hr)]; [|by apply M]); xcbn; try discriminate Hcl.
    + (* write *) destruct (M _ _ _ Hc2 Hcl) as (A & B & C & D). split; [done|]. split; [done|]. split.
      * intros Hp. destruct (C Hp) as [m Hm]. exists m. by apply lookup_app_l_Some.
      * intros s Hs. destruct (D s Hs) as (m & Hm & Hd). exists m. split; [by apply lookup_app_l_Some|done].
    + (* open *) injection Hcl as <-. xcbn. split; [eexists; apply elem_of_app; right; apply elem_of_list_here|]. split; [by rewrite Hc2; eauto|]. done.
    + injection Hcl as <-. xcbn. destruct (M _ _ _ Hc eq_refl) as (A & B & C & D). xcbn. split; [done|]. split; [done|]. split; [done|].
      intros s' [= <-]. eexists. split; [exact Hc4|]. unfold dec. by rewrite Hc5.
    + injection Hcl as <-. xcbn. destruct (M _ _ _ Hc eq_refl) as (A & B & C & D). xcbn. done.
    + injection Hcl as <-. xcbn. destruct (M _ _ _ Hc eq_refl) as (A & B & C & D). xcbn. split; [done|]. split; [done|]. split; [|done].
      intros _. destruct (D _ eq_refl) as (m & Hm & _). eauto.
    + injection Hcl as <-. xcbn. destruct (M _ _ _ Hc eq_refl) as (A & B & C & D). xcbn. done.
    + injection Hcl as <-. destruct (M _ _ _ Hc eq_refl) as (A & B & C & D). done.
    + apply map_drop_claim in Hr as (q0 & Hr & ->). rewrite drop_claim_log in *. unfold drop_claim in Hcl. destruct (q_claim q0) as [c0|] eqn:E0; [|congruence].
      destruct (decide (c_owner c0 = i)); [done|]. rewrite E0 in Hcl. injection Hcl as <-. by apply M.
Qed.

(* ---------- the reading of a partition ---------- *)

Lemma delivered_mono {A} (log ms : list A) n l : delivered log n l -> delivered (log ++ ms) n l.
Proof.
  intros H. induction H as [|n l x H IH E|n o l H IH E]; [constructor| |by eapply delivered_again].
  apply delivered_next; [done|]. by apply lookup_app_l_Some.
Qed.
Lemma delivered_all {A} (log : list A) n l k x : delivered log n l -> (k < n)%nat -> log !! k = Some x -> x ∈ l.
Proof.
  intros H. revert k x. induction H as [|n l y H IH E|n o l H IH E]; intros k x Hk Hx; [lia| |apply (IH k); [lia|done]].
  apply elem_of_app. destruct (decide (k = n)) as [->|]; [right|left; apply (IH k); [lia|done]]. rewrite E in Hx. injection Hx as ->. apply elem_of_list_here.
Qed.
Lemma delivered_elem {A} (log : list A) n l x : delivered log n l -> x ∈ l -> x ∈ log.
Proof.
  intros H. induction H as [|n l y H IH E|n o l H IH E]; intros Hx; [by apply elem_of_nil in Hx| |by apply IH].
  apply elem_of_app in Hx as [Hx|Hx]; [by apply IH|]. apply elem_of_list_singleton in Hx as ->. by eapply elem_of_list_lookup_2.
Qed.

Definition read_state (rec : list kentry) (p : nat) : bool * option (nat * list nat) := foldl (reading_step p) (false, None) rec.
Lemma read_state_snoc rec x p : read_state (rec ++ [x]) p = reading_step p (read_state rec p) x.
Proof. unfold read_state. by rewrite foldl_app. Qed.

Definition inv_read1 (p : nat) (q : partition) (rec : list kentry) : Prop :=
  ((read_state rec p).1 = true <-> is_Some (q_committed q)) /\
  match (read_state rec p).2 with
  | None => q_claim q = None /\ q_committed q = None /\ handled rec p = []
  | Some (o, l) => exists n, (o <= n <= length (q_log q))%nat /\ delivered (seq o (length (q_log q) - o)) (n - o) l /\
      (forall c, q_claim q = Some c -> n = handled_to c /\ forall mk, c_mark c = Some mk -> (o <= mk <= n)%nat) /\
      (forall c, q_committed q = Some c -> (o <= c <= n)%nat)
  end.
Definition inv_read (st : kstate) (rec : list kentry) : Prop := forall p q, z_parts st !! p = Some q -> inv_read1 p q rec.

(** Entries about other things do not count. *)
Definition about (p : nat) (e : kentry) : bool :=
  match e with ROpen p' _ _ | RSkip p' _ | RCall p' _ _ _ | RCommit p' _ => bool_decide (p' = p) | _ => false end.
Lemma reading_step_other p e acc : about p e = false -> reading_step p acc e = acc.
Proof. destruct e; cbn; try done; intros H; case_bool_decide; try done; rewrite decide_False; try done; tauto. Qed.
Lemma handled_other rec e p : about p e = false -> handled (rec ++ [e]) p = handled rec p.
Proof.
  intros H. unfold handled. rewrite omap_app. destruct e; cbn in *; try (by rewrite app_nil_r); case_bool_decide; try done;
    rewrite decide_False by done; by rewrite app_nil_r.
Qed.

Lemma inv_read1_other p q rec e : about p e = false -> inv_read1 p q rec -> inv_read1 p q (rec ++ [e]).
Proof. intros H. unfold inv_read1. by rewrite read_state_snoc, reading_step_other, handled_other. Qed.

Lemma seq_lookup o n k : (k < n)%nat -> seq o n !! k = Some (o + k)%nat.
Proof. intros H. by apply lookup_seq. Qed.

Lemma inv_read_step cfg e st rec st' l : inv_log st rec -> inv_read st rec -> kstep cfg e st = Next (st', l) -> inv_read st' (rec ++ l).
Proof.
  intros (_ & _ & HL) H E. destruct st as [xs qs]. unfold inv_read in H. cbn [z_parts z_proxies] in *.
  assert (N : forall p q e, qs !! p = Some q -> about p e = false -> inv_read1 p q (rec ++ [e])) by (intros; apply inv_read1_other; auto).
  destruct e; cbn [kstep] in E; kcases E; try (injection E as <- <-); subst; intros r q Hr; cbn [z_parts] in Hr; rewrite ?app_nil_r;
    try (by apply H); try (by apply N).
  - (* write *) apply insert_lookup_cases in Hr as [(-> & -> & _)|(_ & Hr)]; [|by apply H].
    specialize (H _ _ Hc2). unfold inv_read1 in *. xcbn. destruct H as [Ha Hb]. split; [done|].
    destruct (read_state rec _).2 as [[o ls]|]; [|done]. destruct Hb as (n & Hn & Hd & Hb). exists n. rewrite app_length. cbn [length]. split; [lia|].
    split; [|done]. replace (length q_log + 1 - o)%nat with ((length q_log - o) + 1)%nat by lia. rewrite seq_app. by apply delivered_mono.
  - (* open *) apply insert_lookup_cases in Hr as [(-> & -> & _)|(Hne & Hr)]; [|apply N; [done|]; cbn; by apply bool_decide_false].
    specialize (H _ _ Hc). unfold inv_read1 in *. rewrite read_state_snoc. xcbn. destruct H as [Ha Hb].
    destruct (read_state rec p) as [cm rd]. cbn [fst snd] in *. cbn [reading_step]. destruct q_committed as [c|].
    + assert (cm = true) as -> by (apply Ha; eauto). rewrite decide_False by (cbn; intros [_ ?]; done). cbn [fst snd default]. split; [done|].
      destruct rd as [[o ls]|]; [|by destruct Hb as (_ & ? & _)]. destruct Hb as (n & Hn & Hd & _ & Hcm). specialize (Hcm c eq_refl).
      exists c. split; [lia|]. split; [eapply delivered_again; [exact Hd|lia]|]. split; [|intros c' [= <-]; lia].
      intros cl [= <-]. split; done.
    + assert (cm = false) as -> by (destruct cm; [|done]; destruct Ha as [Ha _]; destruct (Ha eq_refl); done).
      rewrite decide_True by done. cbn [fst snd default]. split; [split; [done|by intros [? ?]]|]. exists (length q_log). split; [lia|].
      rewrite Nat.sub_diag. split; [constructor|]. split; [|done]. intros cl [= <-]. split; done.
  - (* next: calling *) apply insert_lookup_cases in Hr as [(-> & -> & _)|(_ & Hr)]; [|by apply H].
    specialize (H _ _ Hc). unfold inv_read1 in *. xcbn. destruct H as [Ha Hb]. split; [done|].
    destruct (read_state rec _).2 as [[o ls]|]; [|by destruct Hb]. destruct Hb as (n & Hn & Hd & Hb & Hb2). exists n. split; [done|]. split; [done|]. split; [|done].
    intros cl [= <-]. destruct (Hb _ eq_refl) as [A B]. done.
  - (* next: skip *) apply insert_lookup_cases in Hr as [(-> & -> & _)|(Hne & Hr)]; [|apply N; [done|]; cbn; by apply bool_decide_false].
    specialize (H _ _ Hc). unfold inv_read1 in *. rewrite read_state_snoc. xcbn. destruct H as [Ha Hb].
    destruct (read_state rec p) as [cm rd]. cbn [fst snd] in *. cbn [reading_step]. rewrite decide_True by done. cbn [fst snd]. split; [done|].
    destruct rd as [[o ls]|]; [|by destruct Hb]. destruct Hb as (n & Hn & Hd & Hb & Hb2). destruct (Hb _ eq_refl) as [-> Hmk]. unfold handled_to in *. xcbn.
    apply lookup_lt_Some in Hc4. exists (S c_next). split; [lia|].
    split. { replace (S c_next - o)%nat with (S (c_next - o)) by lia. apply delivered_next; [done|]. rewrite seq_lookup by lia. f_equal. lia. }
    split; [|intros c' Hc'; specialize (Hb2 c' Hc'); lia]. intros cl [= <-]. xcbn. split; [done|]. intros mk Hm. specialize (Hmk mk Hm). lia.
  - (* call *) apply insert_lookup_cases in Hr as [(-> & -> & _)|(Hne & Hr)]; [|apply N; [done|]; cbn; by apply bool_decide_false].
    specialize (H _ _ Hc). destruct (HL _ _ _ Hc eq_refl) as (_ & _ & _ & HL4). destruct (HL4 _ eq_refl) as (m & Hm & _). xcbn. apply lookup_lt_Some in Hm.
    unfold inv_read1 in *. rewrite read_state_snoc. xcbn. destruct H as [Ha Hb].
    destruct (read_state rec p) as [cm rd]. cbn [fst snd] in *. cbn [reading_step]. rewrite decide_True by done. cbn [fst snd]. split; [done|].
    destruct rd as [[o ls]|]; [|by destruct Hb]. destruct Hb as (n & Hn & Hd & Hb & Hb2). destruct (Hb _ eq_refl) as [-> Hmk]. unfold handled_to in *. xcbn.
    exists (S c_next). split; [lia|].
    split. { replace (S c_next - o)%nat with (S (c_next - o)) by lia. apply delivered_next; [done|]. rewrite seq_lookup by lia. f_equal. lia. }
    split; [|intros c' Hc'; specialize (Hb2 c' Hc'); lia]. intros cl [= <-]. xcbn. split; [done|]. intros mk Hm'. specialize (Hmk mk Hm'). lia.
  - (* mark *) apply insert_lookup_cases in Hr as [(-> & -> & _)|(_ & Hr)]; [|by apply H].
    specialize (H _ _ Hc). unfold inv_read1 in *. xcbn. destruct H as [Ha Hb]. split; [done|].
    destruct (read_state rec _).2 as [[o ls]|]; [|by destruct Hb]. destruct Hb as (n & Hn & Hd & Hb & Hb2). exists n. split; [done|]. split; [done|]. split; [|done].
    intros cl [= <-]. destruct (Hb _ eq_refl) as [-> Hmk]. unfold handled_to in *. xcbn. split; [done|]. intros mk [= <-].
    destruct c_mark as [m0|]; [change (default 0%nat (Some m0)) with m0; specialize (Hmk m0 eq_refl); lia|change (default 0%nat None) with 0%nat; lia].
  - (* commit *) apply insert_lookup_cases in Hr as [(-> & -> & _)|(Hne & Hr)]; [|apply N; [done|]; cbn; by apply bool_decide_false].
    specialize (H _ _ Hc). unfold inv_read1 in *. rewrite read_state_snoc. xcbn. destruct H as [Ha Hb].
    destruct (read_state rec p) as [cm rd]. cbn [fst snd] in *. cbn [reading_step]. rewrite decide_True by done. cbn [fst snd]. split; [split; [eauto|done]|].
    destruct rd as [[o ls]|]; [|by destruct Hb]. destruct Hb as (n0 & Hn & Hd & Hb & Hb2). destruct (Hb _ eq_refl) as [-> Hmk]. unfold handled_to in *. xcbn.
    eexists. split; [exact Hn|]. split; [exact Hd|]. split; [|intros c' [= <-]; by apply Hmk]. intros cl [= <-]. split; [done|exact Hmk].
  - (* close with commit *) apply insert_lookup_cases in Hr as [(-> & -> & _)|(Hne & Hr)]; [|apply N; [done|]; cbn; by apply bool_decide_false].
    specialize (H _ _ Hc). destruct committed; [|done]. subst. unfold inv_read1 in *. rewrite read_state_snoc. xcbn. destruct H as [Ha Hb].
    destruct (read_state rec p) as [cm rd]. cbn [fst snd] in *. cbn [reading_step]. rewrite decide_True by done. cbn [fst snd]. split; [split; [eauto|done]|].
    destruct rd as [[o ls]|]; [|by destruct Hb]. destruct Hb as (n0 & Hn & Hd & Hb & Hb2). destruct (Hb _ eq_refl) as [-> Hmk]. unfold handled_to in *. xcbn.
    eexists. split; [exact Hn|]. split; [exact Hd|]. split; [done|]. intros c' [= <-]. by apply Hmk.
  - (* close *) apply insert_lookup_cases in Hr as [(-> & -> & _)|(_ & Hr)]; [|by apply H].
    specialize (H _ _ Hc). unfold inv_read1 in *. xcbn. destruct H as [Ha Hb]. split; [done|].
    destruct (read_state rec _).2 as [[o ls]|]; [|by destruct Hb]. destruct Hb as (n & Hn & Hd & Hb & Hb2). exists n. done.
  - (* crash *) apply map_drop_claim in Hr as (q0 & Hr & ->). apply inv_read1_other; [done|]. specialize (H _ _ Hr). unfold inv_read1 in *.
    rewrite drop_claim_log, drop_claim_committed. destruct H as [Ha Hb]. split; [done|].
    assert (Hcl : forall c, ClusterModel.q_claim (drop_claim i q0) = Some c -> ClusterModel.q_claim q0 = Some c).
    { unfold drop_claim. intros c. destruct (ClusterModel.q_claim q0) eqn:E0; [|congruence]. destruct (decide _); [done|congruence]. }
    destruct (read_state rec _).2 as [[o ls]|].
    + destruct Hb as (n & Hn & Hd & Hb & Hb2). exists n. split; [done|]. split; [done|]. split; [|done]. intros c Hcc. by apply Hb, Hcl.
    + destruct Hb as (Hb1 & Hb2 & Hb3). split; [|done]. unfold drop_claim. by rewrite Hb1.
Qed.

(* ---------- a partition that has had one owner ---------- *)

Lemma handled_snoc rec e p : handled (rec ++ [e]) p = handled rec p ++
  match e with RCall p' o _ _ | RSkip p' o => if decide (p' = p) then [o] else [] | _ => [] end.
Proof. unfold handled. rewrite omap_app. f_equal. destruct e; cbn; try done; by destruct (decide _). Qed.
Lemma opened_snoc rec e p : opened (rec ++ [e]) p = (opened rec p + match e with ROpen p' _ _ => if decide (p' = p) then 1 else 0 | _ => 0 end)%nat.
Proof. unfold opened. rewrite omap_app, app_length. f_equal. destruct e; cbn; try done; by destruct (decide _). Qed.

(** Handled and opened depend only on these entries. *)
Definition inv_once1 (p : nat) (q : partition) (rec : list kentry) : Prop :=
  (opened rec p = 0%nat -> q_claim q = None /\ handled rec p = []) /\
  (opened rec p = 1%nat -> exists o n i, (o <= n <= length (q_log q))%nat /\ ROpen p i o ∈ rec /\ handled rec p = seq o (n - o) /\
     (forall c, q_claim q = Some c -> n = handled_to c)).
Definition inv_once (st : kstate) (rec : list kentry) : Prop := forall p q, z_parts st !! p = Some q -> inv_once1 p q rec.

Lemma inv_once1_other p q rec e : about p e = false -> inv_once1 p q rec -> inv_once1 p q (rec ++ [e]).
Proof.
  intros H. unfold inv_once1. rewrite handled_other by done. assert (opened (rec ++ [e]) p = opened rec p) as ->.
  { rewrite opened_snoc. destruct e; try lia. cbn in H. case_bool_decide; [done|]. rewrite decide_False by done. lia. }
  intros [H1 H2]. split; [done|]. intros Ho. destruct (H2 Ho) as (o & n & i & A & B & C). exists o, n, i. split; [done|]. split; [apply elem_of_app; by left|done].
Qed.

Lemma inv_once_step cfg e st rec st' l : inv_log st rec -> inv_read st rec -> inv_once st rec -> kstep cfg e st = Next (st', l) -> inv_once st' (rec ++ l).
Proof.
  intros (_ & _ & HL) HR H E. destruct st as [xs qs]. unfold inv_once, inv_read in H, HR. cbn [z_parts z_proxies] in *.
  assert (N : forall p q e, qs !! p = Some q -> about p e = false -> inv_once1 p q (rec ++ [e])) by (intros; apply inv_once1_other; auto).
  assert (S : forall p q q', inv_once1 p q rec -> length (ClusterModel.q_log q') = length (ClusterModel.q_log q) ->
     (forall c', ClusterModel.q_claim q' = Some c' -> exists c, ClusterModel.q_claim q = Some c /\ handled_to c' = handled_to c) -> inv_once1 p q' rec).
  { intros p q q' [H1 H2] El Hcl. split.
    - intros Ho. destruct (H1 Ho) as [A B]. split; [|done]. destruct (ClusterModel.q_claim q') as [c'|]; [|done]. destruct (Hcl _ eq_refl) as (c & ? & _). congruence.
    - intros Ho. destruct (H2 Ho) as (o & n & i & A & B & C & D). exists o, n, i. split; [lia|]. split; [done|]. split; [done|]. intros c' Hc'. destruct (Hcl _ Hc') as (c & Ec & Eh). rewrite Eh. by apply D. }
  destruct e; cbn [kstep] in E; kcases E; try (injection E as <- <-); subst; intros r q Hr; cbn [z_parts] in Hr; rewrite ?app_nil_r;
    try (by apply H); try (by apply N).
  - (* write *) apply insert_lookup_cases in Hr as [(-> & -> & _)|(_ & Hr)]; [|by apply H].
    specialize (H _ _ Hc2). unfold inv_once1 in *. xcbn. destruct H as [Ha Hb]. split; [done|]. intros Ho. destruct (Hb Ho) as (o & n & i' & A & B).
    exists o, n, i'. rewrite app_length. split; [lia|done].
  - (* open *) apply insert_lookup_cases in Hr as [(-> & -> & _)|(Hne & Hr)]; [|apply N; [done|]; cbn; by apply bool_decide_false].
    specialize (H _ _ Hc). unfold inv_once1 in *. rewrite opened_snoc, handled_snoc, app_nil_r. rewrite decide_True by done. xcbn. destruct H as [Ha Hb]. split; [lia|].
    intros Ho. destruct Ha as [_ Ha]; [lia|]. rewrite Ha. destruct (opened rec p) eqn:E0; [|lia].
    assert (exists o, o = default (length q_log) q_committed) as [o Eo] by eauto. rewrite <- Eo.
    assert (Hol : (o <= length q_log)%nat).
    { rewrite Eo. destruct (HR _ _ Hc) as [_ HR2]. xcbn. destruct q_committed as [c|]; [|done]. change (default (length q_log) (Some c)) with c.
      destruct (read_state rec p).2 as [[b ls]|]; [|by destruct HR2 as (_ & ? & _)]. destruct HR2 as (n & Hn & _ & _ & Hcm). specialize (Hcm c eq_refl). lia. }
    exists o, o, i. split; [lia|]. split; [apply elem_of_app; right; apply elem_of_list_here|]. rewrite Nat.sub_diag. split; [done|]. intros c [= <-]. done.
  - (* next: calling *) apply insert_lookup_cases in Hr as [(-> & -> & _)|(_ & Hr)]; [|by apply H].
    eapply S; [by apply H|done|]. intros c' [= <-]. eexists. split; [done|]. done.
  - (* next: skip *) apply insert_lookup_cases in Hr as [(-> & -> & _)|(Hne & Hr)]; [|apply N; [done|]; cbn; by apply bool_decide_false].
    specialize (H _ _ Hc). unfold inv_once1 in *. rewrite opened_snoc, handled_snoc, Nat.add_0_r. rewrite decide_True by done. xcbn. destruct H as [Ha Hb].
    split; [intros Ho; by destruct (Ha Ho)|]. intros Ho. destruct (Hb Ho) as (o & n & i' & A & B & C & D). specialize (D _ eq_refl). unfold handled_to in D. xcbn. subst n.
    apply lookup_lt_Some in Hc4. exists o, (Datatypes.S c_next), i'. split; [lia|]. split; [apply elem_of_app; by left|]. rewrite C. split.
    + replace (Datatypes.S c_next - o)%nat with ((c_next - o) + 1)%nat by lia. rewrite seq_app. cbn [seq]. do 2 f_equal. lia.
    + intros c [= <-]. done.
  - (* call *) apply insert_lookup_cases in Hr as [(-> & -> & _)|(Hne & Hr)]; [|apply N; [done|]; cbn; by apply bool_decide_false].
    destruct (HL _ _ _ Hc eq_refl) as (_ & _ & _ & HL4). destruct (HL4 _ eq_refl) as (m & Hm & _). xcbn. apply lookup_lt_Some in Hm.
    specialize (H _ _ Hc). unfold inv_once1 in *. rewrite opened_snoc, handled_snoc, Nat.add_0_r. rewrite decide_True by done. xcbn. destruct H as [Ha Hb].
    split; [intros Ho; by destruct (Ha Ho)|]. intros Ho. destruct (Hb Ho) as (o & n & i' & A & B & C & D). specialize (D _ eq_refl). unfold handled_to in D. xcbn. subst n.
    exists o, (Datatypes.S c_next), i'. split; [lia|]. split; [apply elem_of_app; by left|]. rewrite C. split.
    + replace (Datatypes.S c_next - o)%nat with ((c_next - o) + 1)%nat by lia. rewrite seq_app. cbn [seq]. do 2 f_equal. lia.
    + intros c [= <-]. done.
  - (* mark *) apply insert_lookup_cases in Hr as [(-> & -> & _)|(_ & Hr)]; [|by apply H].
    eapply S; [by apply H|done|]. intros c' [= <-]. eexists. split; [done|]. done.
  - (* commit *) assert (O1 : inv_once1 r q rec).
    { apply insert_lookup_cases in Hr as [(-> & -> & _)|(_ & Hr)]; [|by apply H]. eapply S; [by apply H|done|]. intros c' [= <-]. eexists. split; [done|]. done. }
    unfold inv_once1 in *. rewrite opened_snoc, handled_snoc, app_nil_r, Nat.add_0_r. destruct O1 as [Ha Hb]. split; [done|]. intros Ho.
    destruct (Hb Ho) as (o & n1 & i' & A & B & C). exists o, n1, i'. split; [done|]. split; [apply elem_of_app; by left|done].
  - (* close with commit *) assert (O1 : inv_once1 r q rec).
    { apply insert_lookup_cases in Hr as [(-> & -> & _)|(_ & Hr)]; [|by apply H]. eapply S; [by apply H|done|]. done. }
    unfold inv_once1 in *. rewrite opened_snoc, handled_snoc, app_nil_r, Nat.add_0_r. destruct O1 as [Ha Hb]. split; [done|]. intros Ho.
    destruct (Hb Ho) as (o & n' & i' & A & B & C). exists o, n', i'. split; [done|]. split; [apply elem_of_app; by left|done].
  - (* close *) apply insert_lookup_cases in Hr as [(-> & -> & _)|(_ & Hr)]; [|by apply H]. eapply S; [by apply H|done|]. done.
  - (* crash *) apply map_drop_claim in Hr as (q0 & Hr & ->). apply inv_once1_other; [done|]. eapply S; [by apply H|by rewrite drop_claim_log|].
    intros c' Hc'. exists c'. split; [|done]. unfold drop_claim in Hc'. destruct (ClusterModel.q_claim q0) eqn:E0; [|congruence]. destruct (decide _); [done|congruence].
Qed.

(* ---------- what the correctors receive ---------- *)

(** The calls for proxy [i] since it was started. *)
Definition called (rec : list kentry) (i : nat) : list span :=
  foldl (fun l e => match e with RCall _ _ j s => if decide (j = i) then l ++ [s] else l | RCrash j _ _ => if decide (j = i) then [] else l | _ => l end) [] rec.
Definition inv_recv (st : kstate) (rec : list kentry) : Prop :=
  forall i x, z_proxies st !! i = Some x -> called rec i = received rec i ++ x_kafka x.

Lemma called_snoc rec e i : called (rec ++ [e]) i =
  match e with RCall _ _ j s => if decide (j = i) then called rec i ++ [s] else called rec i | RCrash j _ _ => if decide (j = i) then [] else called rec i | _ => called rec i end.
Proof. unfold called. by rewrite foldl_app. Qed.
Lemma received_snoc rec e i : received (rec ++ [e]) i =
  match e with RRecv j s => if decide (j = i) then received rec i ++ [s] else received rec i | RCrash j _ _ => if decide (j = i) then [] else received rec i | _ => received rec i end.
Proof. unfold received. by rewrite foldl_app. Qed.

Lemma inv_recv_step cfg e st rec st' l : inv_recv st rec -> kstep cfg e st = Next (st', l) -> inv_recv st' (rec ++ l).
Proof.
  intros H E. destruct st as [xs qs]. unfold inv_recv in *. cbn [z_proxies] in *.
  destruct e; cbn [kstep] in E; kcases E; try (injection E as <- <-); subst; intros i1 x Hx; cbn [z_proxies] in Hx; rewrite ?app_nil_r;
    rewrite ?called_snoc, ?received_snoc;
    try (by apply H);
    try (apply insert_lookup_cases in Hx as [(-> & -> & _)|(Hn & Hx)]; [|by apply H]; by apply (H _ _ Hc)).
  - (* call *) apply insert_lookup_cases in Hx as [(-> & -> & _)|(Hn & Hx)]; [rewrite decide_True by done|rewrite decide_False by done; by apply H].
    rewrite (H _ _ Hc4). xcbn. by rewrite app_assoc.
  - (* recv *) apply insert_lookup_cases in Hx as [(-> & -> & _)|(Hn & Hx)]; [rewrite decide_True by done|rewrite decide_False by done; by apply H].
    rewrite (H _ _ Hc). xcbn. by rewrite <- app_assoc.
  - (* crash *) apply insert_lookup_cases in Hx as [(-> & -> & _)|(Hn & Hx)]; [by rewrite !decide_True by done|rewrite !decide_False by done; by apply H].
Qed.

(* ---------- accounting ---------- *)

Section weights.
  Context (w : span -> nat).
  Definition wsum (l : list span) : nat := foldr (fun s n => w s + n)%nat 0%nat l.
  Lemma wsum_app a b : wsum (a ++ b) = (wsum a + wsum b)%nat.
  Proof. induction a as [|x a IH]; [done|]. cbn [app wsum foldr]. change (foldr _ _ ?l) with (wsum l). rewrite IH. lia. Qed.
  Lemma wsum_insert {A} (f : A -> list span) xs i x x' : xs !! i = Some x ->
    (wsum (concat (map f (<[i := x']> xs))) + wsum (f x) = wsum (concat (map f xs)) + wsum (f x'))%nat.
  Proof.
    revert i. induction xs as [|y xs IH]; intros [|i] H; [done|done| |].
    - injection H as ->. cbn [insert list_insert map concat]. rewrite !wsum_app. lia.
    - change (<[S i := x']> (y :: xs)) with (y :: <[i := x']> xs). cbn [map concat]. rewrite !wsum_app. specialize (IH i H). lia.
  Qed.
  Definition wmsgs (l : list kmsg) : nat := wsum (omap dec l).
  Lemma wmsgs_app a b : wmsgs (a ++ b) = (wmsgs a + wmsgs b)%nat.
  Proof. unfold wmsgs. by rewrite omap_app, wsum_app. Qed.
  Lemma wmsgs_concat {A} (f : A -> list kmsg) xs : wmsgs (concat (map f xs)) = wsum (concat (map (fun x => omap dec (f x)) xs)).
  Proof. induction xs as [|x xs IH]; [done|]. cbn [map concat]. by rewrite wmsgs_app, wsum_app, IH. Qed.
  Lemma wmsgs_insert {A} (f : A -> list kmsg) xs i x x' : xs !! i = Some x ->
    (wmsgs (concat (map f (<[i := x']> xs))) + wmsgs (f x) = wmsgs (concat (map f xs)) + wmsgs (f x'))%nat.
  Proof. intros H. rewrite !wmsgs_concat. apply (wsum_insert (fun x => omap dec (f x)) xs i x x' H). Qed.
  Lemma wmsgs_remove l j m : l !! j = Some m -> (wmsgs (remove j l) + wmsgs [m] = wmsgs l)%nat.
  Proof.
    intros H. rewrite <- (take_drop_middle l j m H) at 2. unfold remove. rewrite !wmsgs_app. change (m :: drop (S j) l) with ([m] ++ drop (S j) l). rewrite wmsgs_app. lia.
  Qed.
End weights.


Definition lost_msg1 (e : kentry) : list kmsg := match e with RTooLarge _ m | RLost _ m | RFailed _ m => [m] | RCrash _ _ ms => ms | _ => [] end.
Definition lost_span1 (e : kentry) : list span := match e with RCrash _ ss _ => ss | _ => [] end.
Definition put1 (e : kentry) : list span := match e with RPut _ s => [s] | _ => [] end.

Definition balanced (w : span -> nat) (st : kstate) (rec : list kentry) : Prop :=
  wsum w (puts rec) = (wsum w (outgoing_spans st) + wmsgs w (outgoing_msgs st) + wmsgs w (stored st) + wmsgs w (lost_msgs rec) + wsum w (lost_spans rec))%nat.

Lemma puts_snoc rec e : puts (rec ++ [e]) = puts rec ++ put1 e.
Proof. unfold puts. rewrite omap_app. f_equal. by destruct e. Qed.
Lemma lost_msgs_snoc rec e : lost_msgs (rec ++ [e]) = lost_msgs rec ++ lost_msg1 e.
Proof. unfold lost_msgs. rewrite map_app, concat_app. f_equal. cbn [map concat]. rewrite app_nil_r. by destruct e. Qed.
Lemma lost_spans_snoc rec e : lost_spans (rec ++ [e]) = lost_spans rec ++ lost_span1 e.
Proof. unfold lost_spans. rewrite map_app, concat_app. f_equal. cbn [map concat]. rewrite app_nil_r. by destruct e. Qed.
Lemma stored_same xs qs p q q' : qs !! p = Some q -> q_log q' = q_log q -> stored (KState xs (<[p := q']> qs)) = concat (map q_log qs).
Proof.
  unfold stored. cbn [z_parts]. intros H E. f_equal. rewrite list_fmap_insert. apply list_insert_id. rewrite E.
  change (map q_log qs) with (q_log <$> qs). by rewrite list_lookup_fmap, H.
Qed.
Lemma stored_drop i qs : map q_log (map (drop_claim i) qs) = map q_log qs.
Proof. rewrite map_map. apply map_ext. intros q. apply drop_claim_log. Qed.

Lemma xmsgs_some h m i b er k : xmsgs (Proxy h (Some m) i b er k) = [m] ++ i ++ b.
Proof. done. Qed.
Lemma xmsgs_none h i b er k : xmsgs (Proxy h None i b er k) = i ++ b.
Proof. done. Qed.
Lemma xmsgs_any h m i b er k : xmsgs (Proxy h m i b er k) = match m with Some m => [m] | None => [] end ++ i ++ b.
Proof. done. Qed.

Ltac bal := rewrite ?xmsgs_some, ?xmsgs_none, ?xmsgs_any in *; rewrite ?wsum_app, ?wmsgs_app in *; try lia.

Lemma encode_dec ord s m : wire_ok s -> iteration_order ord (s_tags s) -> encode_msg ord s = Some m -> dec m = Some s.
Proof.
  intros Hw Ho E. unfold encode_msg in E. destruct (binary_roundtrip s ord Hw Ho) as (bs & Eb & Hb). rewrite Eb in E. injection E as <-.
  unfold dec. cbn [km_val]. specialize (Hb []). rewrite app_nil_r in Hb. by rewrite Hb.
Qed.

Lemma balanced_step w cfg e st rec st' l : valid_kevent e -> inv_good cfg st rec -> balanced w st rec -> kstep cfg e st = Next (st', l) -> balanced w st' (rec ++ l).
Proof.
  intros Hv (HG & _) H E. destruct st as [xs qs]. unfold balanced in H. cbn [z_proxies] in HG.
  assert (Ho : forall xs qs, outgoing_spans (KState xs qs) = concat (map x_http xs)) by done.
  assert (Hm : forall xs qs, outgoing_msgs (KState xs qs) = concat (map xmsgs xs)) by done.
  assert (Hq : forall xs qs, stored (KState xs qs) = concat (map ClusterModel.q_log qs)) by done.
  assert (X : forall i x x', xs !! i = Some x ->
    (wsum w (concat (map x_http (<[i := x']> xs))) + wsum w (x_http x) = wsum w (concat (map x_http xs)) + wsum w (x_http x'))%nat /\
    (wmsgs w (concat (map xmsgs (<[i := x']> xs))) + wmsgs w (xmsgs x) = wmsgs w (concat (map xmsgs xs)) + wmsgs w (xmsgs x'))%nat).
  { intros i x x' Hx. split; [by apply wsum_insert|by apply wmsgs_insert]. }
  destruct e; cbn [kstep] in E; kcases E; try (injection E as <- <-); subst; unfold balanced;
    rewrite ?app_nil_r, ?puts_snoc, ?lost_msgs_snoc, ?lost_spans_snoc; cbn [put1 lost_msg1 lost_span1]; rewrite ?app_nil_r;
    try (erewrite stored_same; [|eassumption|done]); rewrite ?Ho, ?Hm, ?Hq in *; try exact H;
    try match goal with |- context [map _ (<[?i := ?x']> xs)] => match goal with HX : xs !! i = Some ?x |- _ => destruct (X i x x' HX) as [X1 X2] end end; xcbn; bal.
  - (* take *) destruct (HG _ _ Hc) as [HG1 _]. xcbn. apply Forall_cons in HG1 as [[Hw Hp] _].
    pose proof (encode_dec _ s k Hw (Hv _) Hc3) as Hd. change (s :: l0) with ([s] ++ l0) in X1. rewrite wsum_app in X1.
    assert (wmsgs w [k] = wsum w [s]) by (unfold wmsgs; cbn [omap list_omap]; by rewrite Hd). lia.
  - (* too large *) change (k :: l0) with ([k] ++ l0) in X2. rewrite wmsgs_app in X2. lia.
  - (* dispatch *) change (k :: l0) with ([k] ++ l0) in X2. rewrite wmsgs_app in X2. lia.
  - (* write *) pose proof (wmsgs_remove w _ _ _ Hc1). pose proof (wmsgs_insert w ClusterModel.q_log qs _ _ (Partition (q_log ++ [k]) q_committed q_claim) Hc2) as Y.
    xcbn. rewrite wmsgs_app in Y. lia.
  - (* lose *) pose proof (wmsgs_remove w _ _ _ Hc1). lia.
  - (* fail *) pose proof (wmsgs_remove w _ _ _ Hc1). lia.
  - (* crash *) rewrite stored_drop. change (wmsgs w (xmsgs new_proxy)) with 0%nat in X2. change (wsum w (ClusterModel.x_http new_proxy)) with 0%nat in X1. lia.
Qed.
