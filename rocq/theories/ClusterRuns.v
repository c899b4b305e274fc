(** Proofs about several proxies with Kafka, second part: what holds of every run. *)
From Verif Require Import Base SpanModel BinaryModel BinarySpec BinaryProofs PipelineModel ConsumeModel ReplaySpec ReplayProofs ClusterModel ClusterSpec ClusterProofs.

Definition inv_lost (rec : list kentry) : Prop := Forall (good rec) (lost_msgs rec).
Lemma inv_lost_step cfg e st rec st' l : inv_good cfg st rec -> inv_lost rec -> kstep cfg e st = Next (st', l) -> inv_lost (rec ++ l).
Proof.
  intros (HG & _) H E. unfold inv_lost in *. destruct st as [xs qs]. cbn [z_proxies] in HG.
  assert (M : forall l, Forall (good (rec ++ l)) (lost_msgs rec)) by (intros; eapply Forall_impl; [exact H|]; intros; by apply good_mono).
  destruct e; cbn [kstep] in E; kcases E; try (injection E as <- <-); subst; rewrite ?app_nil_r, ?lost_msgs_snoc; cbn [lost_msg1]; rewrite ?app_nil_r; try apply M; try exact H;
    apply Forall_app; (split; [apply M|]); destruct (HG _ _ Hc) as [_ HX]; unfold xmsgs in HX; xcbn;
    (eapply Forall_impl; [|intros ? HY; apply good_mono; exact HY]).
  - apply Forall_app in HX as [_ HX]. apply Forall_app in HX as [HX _]. apply Forall_cons in HX as [HX _]. by apply Forall_singleton.
  - apply Forall_app in HX as [_ HX]. apply Forall_app in HX as [_ HX]. apply Forall_singleton. by eapply Forall_lookup_1.
  - apply Forall_app in HX as [_ HX]. apply Forall_app in HX as [_ HX]. apply Forall_singleton. by eapply Forall_lookup_1.
  - exact HX.
Qed.

Definition inv_all (cfg : kconfig) (st : kstate) (rec : list kentry) : Prop :=
  inv_good cfg st rec /\ inv_log st rec /\ inv_read st rec /\ inv_once st rec /\ inv_recv st rec /\ inv_lost rec /\ forall w, balanced w st rec.

Lemma replicate_elem {A} n (x y : A) i : replicate n x !! i = Some y -> y = x.
Proof. intros H. by apply lookup_replicate in H as [? _]. Qed.

Lemma inv_all_init cfg n parts : inv_all cfg (kinit n parts) [].
Proof.
  split; [|split; [|split; [|split; [|split; [|split]]]]].
  - split; cbn [kinit z_proxies z_parts].
    + intros i x H. apply replicate_elem in H as ->. split; apply Forall_nil_2.
    + intros p q H. apply replicate_elem in H as ->. apply Forall_nil_2.
  - split; [by intros []|]. split; [intros p o H; by apply elem_of_nil in H|]. cbn [kinit z_parts]. intros p q c H. by apply replicate_elem in H as ->.
  - intros p q H. cbn [kinit z_parts] in H. apply replicate_elem in H as ->. split; [|done]. cbn. split; [done|by intros []].
  - intros p q H. cbn [kinit z_parts] in H. apply replicate_elem in H as ->. split; done.
  - intros i x H. cbn [kinit z_proxies] in H. by apply replicate_elem in H as ->.
  - unfold inv_lost. cbn. apply Forall_nil_2.
  - intros w. unfold balanced. 
    assert (Z : forall {A B} (f : A -> list B) k x, f x = [] -> concat (map f (replicate k x)) = []).
    { intros A B f k x Hf. induction k as [|k IH]; [done|]. cbn [replicate map concat]. by rewrite Hf, IH. }
    unfold outgoing_spans, outgoing_msgs, stored, kinit. cbn [z_proxies z_parts]. by rewrite !Z by done.
Qed.

Lemma inv_all_step cfg e st rec st' l : valid_kevent e -> inv_all cfg st rec -> kstep cfg e st = Next (st', l) -> inv_all cfg st' (rec ++ l).
Proof.
  intros Hv (H1 & H2 & H3 & H4 & H5 & H6 & H7) E. split; [by eapply inv_good_step|]. split; [by eapply inv_log_step|]. split; [by eapply inv_read_step|].
  split; [by eapply inv_once_step|]. split; [by eapply inv_recv_step|]. split; [by eapply inv_lost_step|]. intros w. by eapply balanced_step.
Qed.

Lemma reached_all cfg n parts evs st rec : reached cfg n parts evs st rec -> inv_all cfg st rec.
Proof. apply reached_inv; [apply inv_all_init|intros; by eapply inv_all_step]. Qed.

(** Every entry of the record was made by one step. *)
Lemma krun_snoc cfg evs e st rec st' rec' : krun cfg evs st rec = Next (st', rec') ->
  krun cfg (evs ++ [e]) st rec = match kstep cfg e st' with Next (st2, l) => Next (st2, rec' ++ l) | Blocked => Next (st', rec') | Panicked => Panicked end.
Proof.
  revert st rec. induction evs as [|e0 evs IH]; intros st rec E.
  - injection E as <- <-. cbn [app krun]. destruct (kstep cfg e st) as [[st2 l]| |]; done.
  - cbn [app krun] in *. destruct (kstep cfg e0 st) as [[st2 l]| |]; [by apply IH|by apply IH|done].
Qed.

Lemma reached_snoc cfg n parts evs e st rec st' l : reached cfg n parts evs st rec -> valid_kevent e -> kstep cfg e st = Next (st', l) ->
  reached cfg n parts (evs ++ [e]) st' (rec ++ l).
Proof.
  intros [Hv E] He Es. split; [apply Forall_app; split; [done|by apply Forall_singleton]|]. rewrite (krun_snoc _ _ _ _ _ _ _ E). by rewrite Es.
Qed.

Lemma reached_split cfg n parts evs st rec r1 x r2 : reached cfg n parts evs st rec -> rec = r1 ++ x :: r2 ->
  exists evs1 st1 e st2, reached cfg n parts evs1 st1 r1 /\ valid_kevent e /\ kstep cfg e st1 = Next (st2, [x]).
Proof.
  intros H. revert r1 x r2.
  enough (Hp : (exists evs, reached cfg n parts evs st rec) /\ forall r1 x r2, rec = r1 ++ x :: r2 ->
    exists evs1 st1 e st2, reached cfg n parts evs1 st1 r1 /\ valid_kevent e /\ kstep cfg e st1 = Next (st2, [x])) by apply Hp.
  revert H. apply (reached_inv cfg n parts (fun st rec => (exists evs, reached cfg n parts evs st rec) /\ forall r1 x r2, rec = r1 ++ x :: r2 ->
    exists evs1 st1 e st2, reached cfg n parts evs1 st1 r1 /\ valid_kevent e /\ kstep cfg e st1 = Next (st2, [x]))).
  - split; [exists []; by split|]. by intros [].
  - intros e st0 rec0 st' l Hv [[evs0 H0] HI] Es. split; [eexists; by eapply reached_snoc|]. intros r1 x r2 Er.
    destruct (kstep_rec _ _ _ _ _ Es) as [->|[y ->]]; [rewrite app_nil_r in Er; by eapply HI|].
    destruct r2 as [|z r2 _] using rev_ind.
    + apply app_inj_tail in Er as [-> ->]. exists evs0, st0, e, st'. done.
    + rewrite app_comm_cons, app_assoc in Er. apply app_inj_tail in Er as [-> ->]. by eapply HI.
Qed.

(* ---------- C66 ---------- *)

Lemma kstep_commit cfg e st st' p c : kstep cfg e st = Next (st', [RCommit p c]) ->
  exists q q', z_parts st !! p = Some q /\ z_parts st' !! p = Some q' /\ q_log q' = q_log q /\ q_committed q' = Some c.
Proof.
  intros E. destruct st as [xs qs]. destruct e; cbn [kstep] in E; kcases E; try discriminate E; injection E as <- <- <-; subst; cbn [z_parts].
  - eexists _, _. split; [exact Hc|]. split; [rewrite list_lookup_insert; [done|by eapply lookup_lt_Some]|]. done.
  - eexists _, _. split; [exact Hc|]. split; [rewrite list_lookup_insert; [done|by eapply lookup_lt_Some]|]. done.
Qed.

Lemma handled_elem rec p o : o ∈ handled rec p -> (exists i s, RCall p o i s ∈ rec) \/ RSkip p o ∈ rec.
Proof.
  unfold handled. rewrite elem_of_list_omap. intros (e & He & H). destruct e; try done; destruct (decide _); try done; subst; injection H as ->; eauto.
Qed.

(** [reading] lists only offsets that were handled. *)
Lemma reading_handled rec p o l k : reading rec p = Some (o, l) -> k ∈ l -> k ∈ handled rec p.
Proof.
  change (reading rec p) with (read_state rec p).2. revert o l. induction rec as [|e rec IH] using rev_ind; [done|]. intros o l.
  rewrite read_state_snoc, handled_snoc, elem_of_app. unfold reading_step.
  destruct e; try (intros E Hk; left; by eapply IH).
  - (* open *) destruct (decide _); [intros [= <- <-] Hk; by apply elem_of_nil in Hk|intros E Hk; left; by eapply IH].
  - (* skip *) destruct (decide _); [|intros E Hk; left; by eapply IH]. cbn. destruct (read_state rec p).2 as [[b l0]|]; [|done]. intros [= <- <-] Hk.
    apply elem_of_app in Hk as [Hk|Hk]; [left; by eapply IH|by right].
  - (* call *) destruct (decide _); [|intros E Hk; left; by eapply IH]. cbn. destruct (read_state rec p).2 as [[b l0]|]; [|done]. intros [= <- <-] Hk.
    apply elem_of_app in Hk as [Hk|Hk]; [left; by eapply IH|by right].
  - (* commit *) destruct (decide _); intros E Hk; left; by eapply IH.
Qed.

Lemma in_log_call st p k q m s s' : in_log st p k s' -> z_parts st !! p = Some q -> q_log q !! k = Some m -> dec m = Some s -> s' = s.
Proof. intros (q' & m' & Hq & Hm & Hd) Hq2 Hm2 Hd2. congruence. Qed.

Lemma at_least_once cfg n parts evs st rec r1 p c r2 :
  reached cfg n parts evs st rec -> rec = r1 ++ RCommit p c :: r2 ->
  exists o l, reading r1 p = Some (o, l) /\
  forall q k m s, z_parts st !! p = Some q -> (o <= k < c)%nat -> q_log q !! k = Some m -> carries m s -> exists i, RCall p k i s ∈ r1.
Proof.
  intros H Er. destruct (reached_split _ _ _ _ _ _ _ _ _ H Er) as (evs1 & st1 & e & st2 & H1 & Hv & Es).
  pose proof (reached_all _ _ _ _ _ _ (reached_snoc _ _ _ _ _ _ _ _ _ H1 Hv Es)) as (_ & _ & HR & _).
  pose proof (reached_all _ _ _ _ _ _ H) as (_ & (HL & HS & _) & _).
  destruct (kstep_commit _ _ _ _ _ _ Es) as (q1 & q2 & Hq1 & Hq2 & El & Ec).
  destruct (HR _ _ Hq2) as [_ HR2]. change (reading r1 p) with (read_state r1 p).2.
  rewrite read_state_snoc in HR2. cbn [reading_step] in HR2. rewrite decide_True in HR2 by done. cbn in HR2.
  destruct (read_state r1 p).2 as [[o l]|] eqn:Erd; [|destruct HR2 as (_ & HR2 & _); congruence].
  destruct HR2 as (nn & Hn & Hd & _ & Hcm). specialize (Hcm _ Ec). exists o, l. split; [done|]. intros q k m s Hq Hk Hm Hs.
  assert (Hkl : k ∈ l).
  { eapply (delivered_all _ _ _ (k - o)%nat); [exact Hd|lia|]. rewrite seq_lookup by lia. f_equal. lia. }
  assert (Hh : k ∈ handled r1 p) by (by eapply reading_handled).
  apply handled_elem in Hh as [(i & s' & Hh)|Hh].
  - exists i. apply elem_of_list_split in Hh as (a & b & Eab). assert (s' = s) as ->.
    { destruct (HL a p k i s' (b ++ RCommit p c :: r2)) as (_ & _ & Hin); [by rewrite Er, Eab, <- app_assoc|].
      eapply in_log_call; [exact Hin|exact Hq|exact Hm|by apply dec_carries]. }
    rewrite Eab. apply elem_of_app. right. apply elem_of_list_here.
  - exfalso. apply (HS p k). rewrite Er. apply elem_of_app. by left.
Qed.

Lemma reached_prefix cfg n parts evs st rec r1 x r2 : reached cfg n parts evs st rec -> rec = r1 ++ x :: r2 -> exists evs1 st1, reached cfg n parts evs1 st1 r1.
Proof. intros H E. destruct (reached_split _ _ _ _ _ _ _ _ _ H E) as (evs1 & st1 & _ & _ & H1 & _). eauto. Qed.

Lemma home_part cfg s m : km_key m = trace_key (s_trace s) -> g_part cfg (km_key m) = home cfg (s_trace s).
Proof. by intros ->. Qed.

Lemma in_log_home cfg st rec p k s : inv_good cfg st rec -> in_log st p k s -> p = home cfg (s_trace s).
Proof.
  intros (_ & HG) (q & m & Hq & Hm & Hd). specialize (HG _ _ Hq). rewrite Forall_lookup in HG. destruct (HG _ _ Hm) as ((s' & _ & Hd' & Hk & _) & <-).
  assert (s' = s) as -> by congruence. by apply home_part.
Qed.

Lemma call_origin cfg n parts evs st rec r1 p k i s r2 :
  reached cfg n parts evs st rec -> rec = r1 ++ RCall p k i s :: r2 -> (exists j, RPut j s ∈ r1) /\ (exists o, ROpen p i o ∈ r1) /\ p = home cfg (s_trace s).
Proof.
  intros H Er. pose proof (reached_all _ _ _ _ _ _ H) as (HG & (HL & _) & _). destruct (HL _ _ _ _ _ _ Er) as (H1 & H2 & H3).
  split; [done|]. split; [done|]. by eapply in_log_home.
Qed.

Lemma kstep_recv cfg e st st' i s : kstep cfg e st = Next (st', [RRecv i s]) -> exists x k, z_proxies st !! i = Some x /\ x_kafka x = s :: k.
Proof.
  intros E. destruct st as [xs qs]. destruct e; cbn [kstep] in E; kcases E; try discriminate E; injection E as <- <- <-; subst.
  eexists _, _. split; [exact Hc|]. done.
Qed.

Lemma called_elem rec i s : s ∈ called rec i -> exists p k, RCall p k i s ∈ rec.
Proof.
  induction rec as [|e rec IH] using rev_ind; [intros H; by apply elem_of_nil in H|]. rewrite called_snoc. intros H.
  assert (G : s ∈ called rec i -> exists p k, RCall p k i s ∈ rec ++ [e]).
  { intros Hs. destruct (IH Hs) as (p & k & Hk). exists p, k. apply elem_of_app. by left. }
  destruct e; try (by apply G).
  - destruct (decide _); [|by apply G]. subst. apply elem_of_app in H as [H|H]; [by apply G|]. apply elem_of_list_singleton in H as ->.
    eexists _, _. apply elem_of_app. right. apply elem_of_list_here.
  - destruct (decide _); [by apply elem_of_nil in H|by apply G].
Qed.

Lemma recv_origin cfg n parts evs st rec r1 i s r2 :
  reached cfg n parts evs st rec -> rec = r1 ++ RRecv i s :: r2 -> exists k, RCall (home cfg (s_trace s)) k i s ∈ r1.
Proof.
  intros H Er. destruct (reached_split _ _ _ _ _ _ _ _ _ H Er) as (evs1 & st1 & e & st2 & H1 & Hv & Es).
  destruct (kstep_recv _ _ _ _ _ _ Es) as (x & k & Hx & Hk). pose proof (reached_all _ _ _ _ _ _ H1) as (_ & _ & _ & _ & HR & _).
  specialize (HR _ _ Hx). destruct (called_elem r1 i s) as (p & o & Hc).
  { rewrite HR, Hk. apply elem_of_app. right. apply elem_of_list_here. }
  exists o. apply elem_of_list_split in Hc as (a & b & Eab). destruct (call_origin _ _ _ _ _ _ _ _ _ _ _ _ H1 Eab) as (_ & _ & ->).
  rewrite Eab. apply elem_of_app. right. apply elem_of_list_here.
Qed.

Lemma no_skip cfg n parts evs st rec p o : reached cfg n parts evs st rec -> RSkip p o ∉ rec.
Proof. intros H. pose proof (reached_all _ _ _ _ _ _ H) as (_ & (_ & HS & _) & _). apply HS. Qed.

(* ---------- accounting ---------- *)

#[local] Instance timings_dec : EqDecision timings.
Proof. solve_decision. Defined.
#[local] Instance span_dec : EqDecision span.
Proof. solve_decision. Defined.

Lemma wsum_perm w a b : a ≡ₚ b -> wsum w a = wsum w b.
Proof. intros H. induction H as [|x a b _ IH|x y a|a b c _ IH1 _ IH2]; [done| | |congruence]; cbn [wsum foldr]; change (foldr _ _ ?l) with (wsum w l); lia. Qed.
Lemma wsum_cons w x a : wsum w (x :: a) = (w x + wsum w a)%nat.
Proof. done. Qed.
Lemma wsum_elem x a : (0 < wsum (fun y => if decide (y = x) then 1 else 0)%nat a)%nat -> x ∈ a.
Proof.
  induction a as [|y a IH]; [cbn; lia|]. rewrite wsum_cons. destruct (decide (y = x)) as [->|]; intros H; [apply elem_of_list_here|].
  apply elem_of_list_further, IH. lia.
Qed.
Lemma perm_of_weights a b : (forall w, wsum w a = wsum w b) -> a ≡ₚ b.
Proof.
  revert b. induction a as [|x a IH]; intros b H.
  - destruct b as [|y b]; [done|]. specialize (H (fun _ => 1%nat)). rewrite wsum_cons in H. cbn [wsum foldr] in H. lia.
  - assert (Hx : x ∈ b).
    { apply wsum_elem. rewrite <- H, wsum_cons, decide_True by done. lia. }
    apply elem_of_Permutation in Hx as [b' Hb]. rewrite Hb. apply perm_skip, IH. intros w. specialize (H w). rewrite (wsum_perm w _ _ Hb), !wsum_cons in H. lia.
Qed.

Lemma good_all ms rec : Forall (good rec) ms -> Forall2 carries ms (omap dec ms).
Proof.
  induction ms as [|m ms IH]; [constructor|]. rewrite Forall_cons. intros [(s & _ & Hd & _) H]. cbn [omap list_omap]. rewrite Hd. constructor; [by apply dec_carries|by apply IH].
Qed.
Lemma Forall_concat_map {A B} (P : B -> Prop) (f : A -> list B) l : (forall i x, l !! i = Some x -> Forall P (f x)) -> Forall P (concat (map f l)).
Proof.
  induction l as [|x l IH]; intros H; [apply Forall_nil_2|]. cbn [map concat]. apply Forall_app. split; [by apply (H 0%nat)|]. apply IH. intros i y Hy. by apply (H (S i)).
Qed.
Lemma out_good cfg st rec : inv_good cfg st rec -> Forall (good rec) (outgoing_msgs st).
Proof. intros [HG _]. unfold outgoing_msgs. apply Forall_concat_map. intros i x Hx. apply (HG _ _ Hx). Qed.
Lemma stored_good cfg st rec : inv_good cfg st rec -> Forall (good rec) (stored st).
Proof. intros [_ HG]. unfold stored. apply Forall_concat_map. intros p q Hq. eapply Forall_impl; [by apply HG|]. by intros m [? _]. Qed.

Lemma puts_perm cfg n parts evs st rec : reached cfg n parts evs st rec ->
  puts rec ≡ₚ outgoing_spans st ++ omap dec (outgoing_msgs st) ++ omap dec (stored st) ++ omap dec (lost_msgs rec) ++ lost_spans rec.
Proof.
  intros H. pose proof (reached_all _ _ _ _ _ _ H) as (_ & _ & _ & _ & _ & _ & HB). apply perm_of_weights. intros w. rewrite (HB w). rewrite !wsum_app. unfold wmsgs. lia.
Qed.

Lemma accounted cfg n parts evs st rec : reached cfg n parts evs st rec ->
  exists so ss sl, Forall2 carries (outgoing_msgs st) so /\ Forall2 carries (stored st) ss /\ Forall2 carries (lost_msgs rec) sl /\
    puts rec ≡ₚ outgoing_spans st ++ so ++ ss ++ sl ++ lost_spans rec.
Proof.
  intros H. pose proof (reached_all _ _ _ _ _ _ H) as (HG & _ & _ & _ & _ & HL & _).
  exists (omap dec (outgoing_msgs st)), (omap dec (stored st)), (omap dec (lost_msgs rec)).
  split; [by eapply good_all, out_good|]. split; [by eapply good_all, stored_good|]. split; [by eapply good_all|]. by eapply puts_perm.
Qed.

(* ---------- the calls for one partition ---------- *)

Definition call_list (rec : list kentry) (p : nat) : list (nat * span) :=
  omap (fun e => match e with RCall p' o _ s => if decide (p' = p) then Some (o, s) else None | _ => None end) rec.

Lemma omap_map {A B C} (f : A -> option B) (g : B -> C) (l : list A) : map g (omap f l) = omap (fun x => g <$> f x) l.
Proof. induction l as [|x l IH]; [done|]. cbn [omap list_omap]. destruct (f x); cbn [fmap option_fmap option_map]; cbn [map]; by rewrite IH. Qed.
Lemma omap_ext_in {A B} (f g : A -> option B) (l : list A) : (forall x, x ∈ l -> f x = g x) -> omap f l = omap g l.
Proof.
  induction l as [|x l IH]; intros H; [done|]. cbn [omap list_omap]. rewrite (H x) by apply elem_of_list_here. rewrite IH; [done|].
  intros y Hy. apply H. by apply elem_of_list_further.
Qed.

Lemma call_list_handled rec p : (forall o, RSkip p o ∉ rec) -> map fst (call_list rec p) = handled rec p.
Proof.
  intros H. unfold call_list, handled. rewrite omap_map. apply omap_ext_in. intros e He. destruct e; try done; destruct (decide _); try done. subst. by apply H in He.
Qed.
Lemma call_list_calls rec p : map snd (call_list rec p) = map snd (calls rec p).
Proof.
  unfold call_list, calls. rewrite !omap_map. apply omap_ext_in. intros e He. destruct e; try done; by destruct (decide _).
Qed.

(** The spans of the calls are those of the messages at the handled offsets. *)
Lemma calls_handled cfg n parts evs st rec p q : reached cfg n parts evs st rec -> z_parts st !! p = Some q ->
  map snd (calls rec p) = omap (fun k => q_log q !! k ≫= dec) (handled rec p) /\
  forall k, k ∈ handled rec p -> is_Some (q_log q !! k ≫= dec).
Proof.
  intros H Hq. pose proof (reached_all _ _ _ _ _ _ H) as (HG & (HL & HS & _) & _).
  assert (K : forall k s, (k, s) ∈ call_list rec p -> q_log q !! k ≫= dec = Some s).
  { intros k s Hk. unfold call_list in Hk. apply elem_of_list_omap in Hk as (e & He & Ee). destruct e; try done. destruct (decide _); [|done]. injection Ee as -> ->. subst.
    apply elem_of_list_split in He as (a & b & Eab). destruct (HL _ _ _ _ _ _ Eab) as (_ & _ & (q' & m & Hq' & Hm & Hd)).
    assert (q' = q) as -> by congruence. by rewrite Hm. }
  rewrite <- call_list_calls, <- call_list_handled by (intros; apply HS). split.
  - clear -K. induction (call_list rec p) as [|[k s] l IH]; [done|]. cbn [map fst snd omap list_omap]. rewrite (K k s) by apply elem_of_list_here. rewrite IH; [done|].
    intros k' s' Hk. apply K. by apply elem_of_list_further.
  - intros k Hk. apply elem_of_list_fmap in Hk as ([k' s] & -> & Hk). cbn. eexists. by apply K.
Qed.

Lemma omap_seq_dec (log : list kmsg) o : omap (fun k => log !! k ≫= dec) (seq o (length log - o)) = omap dec (drop o log).
Proof.
  destruct (decide (o <= length log)%nat).
  - assert (G : forall b a, length a = o -> omap (fun k => (a ++ b) !! k ≫= dec) (seq (length a) (length b)) = omap dec b).
    { clear. intros b. induction b as [|m b IH] using rev_ind; intros a Ha; [done|]. rewrite app_length. cbn [length]. rewrite seq_app, !omap_app. f_equal.
      - rewrite <- (IH a Ha). apply omap_ext_in. intros k Hk. apply elem_of_seq in Hk. rewrite app_assoc, (lookup_app_l (a ++ b)); [done|]. rewrite app_length. lia.
      - cbn [seq omap list_omap]. rewrite app_assoc, lookup_app_r by (rewrite app_length; lia). rewrite app_length.
        replace (length a + length b - (length a + length b))%nat with 0%nat by lia. done. }
    assert (Hl : length (take o log) = o) by (rewrite take_length; lia). pose proof (G (drop o log) (take o log) Hl) as E. by rewrite take_drop, Hl, drop_length in E.
  - rewrite (drop_ge log) by lia. by replace (length log - o)%nat with 0%nat by lia.
Qed.

(* ---------- C67, C68 ---------- *)

Lemma filter_omap {A B} (f : B -> bool) (g : A -> option B) (l : list A) :
  List.filter f (omap g l) = omap (fun x => match g x with Some y => if f y then Some y else None | None => None end) l.
Proof. induction l as [|x l IH]; [done|]. cbn [omap list_omap]. destruct (g x) as [y|]; [|exact IH]. cbn [List.filter]. destruct (f y); by rewrite IH. Qed.
Lemma of_trace_app t a b : of_trace t (a ++ b) = of_trace t a ++ of_trace t b.
Proof. apply List.filter_app. Qed.
Lemma of_trace_perm t a b : a ≡ₚ b -> of_trace t a ≡ₚ of_trace t b.
Proof.
  unfold of_trace. intros H. induction H as [|x a b _ IH|x y a|a b c _ IH1 _ IH2]; [done| | |by etrans]; cbn [List.filter].
  - destruct (_ =? _); [by apply perm_skip|done].
  - destruct (s_trace y =? t), (s_trace x =? t); try done. apply perm_swap.
Qed.
Lemma of_trace_nil t l : (forall s, s ∈ l -> s_trace s <> t) -> of_trace t l = [].
Proof.
  unfold of_trace. induction l as [|s l IH]; intros H; [done|]. cbn [List.filter].
  destruct (Z.eqb_spec (s_trace s) t); [exfalso; by apply (H s); [apply elem_of_list_here|]|]. apply IH. intros x Hx. apply H. by apply elem_of_list_further.
Qed.
Lemma of_trace_elem t l s : s ∈ of_trace t l <-> s ∈ l /\ s_trace s = t.
Proof. unfold of_trace. rewrite !elem_of_list_In, filter_In, Z.eqb_eq. done. Qed.

Definition called_all (rec : list kentry) (i : nat) : list span := omap (fun e => match e with RCall _ _ j s => if decide (j = i) then Some s else None | _ => None end) rec.
Lemma called_no_crash rec i : ~ crashed rec i -> called rec i = called_all rec i.
Proof.
  induction rec as [|e rec IH] using rev_ind; [done|]. intros H. unfold called_all. rewrite called_snoc, omap_app. fold (called_all rec i).
  rewrite <- IH by (intros (ss & ms & Hr); apply H; exists ss, ms; apply elem_of_app; by left).
  destruct e; cbn [omap list_omap]; rewrite ?app_nil_r; try done.
  - by destruct (decide _); rewrite ?app_nil_r.
  - destruct (decide _) as [->|]; [|done]. exfalso. apply H. eexists _, _. apply elem_of_app. right. apply elem_of_list_here.
Qed.

Lemma called_trace cfg n parts evs st rec t i : reached cfg n parts evs st rec -> (forall j o, ROpen (home cfg t) j o ∈ rec -> j = i) ->
  of_trace t (called_all rec i) = of_trace t (map snd (calls rec (home cfg t))).
Proof.
  intros H HO. unfold of_trace, called_all, calls. rewrite omap_map, !filter_omap. apply omap_ext_in. intros e He. destruct e as [ | | | | | |p o j s| | |]; try done.
  apply elem_of_list_split in He as (a & b & Eab). destruct (call_origin _ _ _ _ _ _ _ _ _ _ _ _ H Eab) as (_ & (o' & Ho) & Hp).
  destruct (decide (p = home cfg t)) as [->|Hn].
  - assert (j = i) as -> by (apply (HO j o'); rewrite Eab; apply elem_of_app; by left). rewrite decide_True by done. done.
  - cbn. destruct (decide (j = i)); [|done]. destruct (Z.eqb_spec (s_trace s) t) as [E|]; [|done]. by rewrite E in Hp.
Qed.

Lemma received_elem rec i s : s ∈ received rec i -> RRecv i s ∈ rec.
Proof.
  induction rec as [|e rec IH] using rev_ind; [intros H; by apply elem_of_nil in H|]. rewrite received_snoc. intros H.
  assert (G : s ∈ received rec i -> RRecv i s ∈ rec ++ [e]) by (intros Hs; apply elem_of_app; left; by apply IH).
  destruct e; try (by apply G).
  - destruct (decide _); [|by apply G]. subst. apply elem_of_app in H as [H|H]; [by apply G|]. apply elem_of_list_singleton in H as ->. apply elem_of_app. right. apply elem_of_list_here.
  - destruct (decide _); [by apply elem_of_nil in H|by apply G].
Qed.

Lemma others_none cfg n parts evs st rec t i j : reached cfg n parts evs st rec -> (forall j o, ROpen (home cfg t) j o ∈ rec -> j = i) -> j <> i ->
  of_trace t (received rec j) = [].
Proof.
  intros H HO Hj. apply of_trace_nil. intros s Hs Et. apply received_elem in Hs. apply elem_of_list_split in Hs as (a & b & Eab).
  destruct (recv_origin _ _ _ _ _ _ _ _ _ _ H Eab) as [k Hk]. rewrite Et in Hk. apply elem_of_list_split in Hk as (a1 & b1 & Ea).
  destruct (reached_prefix _ _ _ _ _ _ _ _ _ H Eab) as (evs1 & st1 & H1). destruct (call_origin _ _ _ _ _ _ _ _ _ _ _ _ H1 Ea) as (_ & (o & Ho) & _).
  apply Hj, (HO j o). rewrite Eab, Ea. apply elem_of_app. left. apply elem_of_app. by left.
Qed.

(** What the corrector received of a trace whose partition has one reader. *)
Lemma received_calls cfg n parts evs st rec t i x : reached cfg n parts evs st rec -> (forall j o, ROpen (home cfg t) j o ∈ rec -> j = i) ->
  ~ crashed rec i -> z_proxies st !! i = Some x -> x_kafka x = [] ->
  of_trace t (received rec i) = of_trace t (map snd (calls rec (home cfg t))).
Proof.
  intros H HO Hcr Hx Hk. rewrite <- (called_trace _ _ _ _ _ _ _ _ H HO), <- called_no_crash by done.
  pose proof (reached_all _ _ _ _ _ _ H) as (_ & _ & _ & _ & HR & _). rewrite (HR _ _ Hx), Hk, app_nil_r. done.
Qed.

Lemma drop_good {A} (P : A -> Prop) o l : Forall P l -> Forall P (drop o l).
Proof. apply Forall_drop. Qed.

Lemma reading_returns cfg n parts evs st rec t i x q c o : reached cfg n parts evs st rec ->
  (forall j o, ROpen (home cfg t) j o ∈ rec -> j = i) -> ~ crashed rec i -> z_proxies st !! i = Some x -> x_kafka x = [] ->
  z_parts st !! home cfg t = Some q -> q_claim q = Some c -> handled_to c = length (q_log q) ->
  reading rec (home cfg t) = Some (o, handled rec (home cfg t)) ->
  exists ss, Forall2 carries (drop o (q_log q)) ss /\ read_whole (of_trace t ss) (of_trace t (received rec i)).
Proof.
  intros H HO Hcr Hx Hk Hq Hc Hend Hrd. rewrite (received_calls _ _ _ _ _ _ _ _ _ H HO Hcr Hx Hk).
  pose proof (reached_all _ _ _ _ _ _ H) as (HG & _ & HR & _). destruct HG as [_ HG]. specialize (HG _ _ Hq).
  assert (HG2 : Forall (good rec) (q_log q)) by (eapply Forall_impl; [exact HG|]; by intros m [? _]).
  exists (omap dec (drop o (q_log q))). split; [by eapply good_all, Forall_drop|]. apply read_whole_filter.
  destruct (calls_handled _ _ _ _ _ _ _ _ H Hq) as [Ec Hs]. rewrite Ec. destruct (HR _ _ Hq) as [_ HR2]. change (read_state rec (home cfg t)).2 with (reading rec (home cfg t)) in HR2.
  rewrite Hrd in HR2. destruct HR2 as (nn & Hn & Hd & Hcl & _). destruct (Hcl _ Hc) as [-> _]. rewrite Hend in Hd.
  unfold read_whole. rewrite <- omap_seq_dec.
  assert (G : forall log n l, delivered log n l -> (forall k, k ∈ log -> is_Some (q_log q !! k ≫= dec)) ->
    delivered (omap (fun k => q_log q !! k ≫= dec) log) n (omap (fun k => q_log q !! k ≫= dec) l)).
  { clear. intros log n l Hd Hall. set (f := fun k => q_log q !! k ≫= dec) in *. set (g := fun k => default (new_span [] 0 0 0) (f k)).
    assert (E : forall l, (forall k, k ∈ l -> k ∈ log) -> omap f l = map g l).
    { intros l0 Hl. induction l0 as [|k l0 IH]; [done|]. cbn [omap list_omap map]. destruct (Hall k) as [s Hs]; [apply Hl, elem_of_list_here|].
      change (q_log q !! k ≫= dec) with (f k) in Hs. unfold g at 1. rewrite Hs. cbn [default]. f_equal. apply IH. intros k' Hk. apply Hl. by apply elem_of_list_further. }
    rewrite (E log) by done. rewrite (E l) by (intros k Hk; by eapply delivered_elem). by apply delivered_map. }
  assert (Hl : length (omap (fun k => q_log q !! k ≫= dec) (seq o (length (q_log q) - o))) = (length (q_log q) - o)%nat).
  { rewrite omap_seq_dec. rewrite <- (Forall2_length _ _ _ (good_all _ rec (Forall_drop _ o _ HG2))). apply drop_length. }
  rewrite Hl. apply G; [exact Hd|]. intros k Hk2. apply elem_of_seq in Hk2. destruct (lookup_lt_is_Some_2 (q_log q) k) as [m Hm]; [lia|].
  rewrite Hm. rewrite Forall_lookup in HG2. destruct (HG2 _ _ Hm) as (s & _ & Hdm & _). exists s. done.
Qed.

Lemma opened_unique rec p i o j o' : opened rec p = 1%nat -> ROpen p i o ∈ rec -> ROpen p j o' ∈ rec -> j = i /\ o' = o.
Proof.
  intros H Hi Hj. apply elem_of_list_split in Hi as (a & b & ->). unfold opened in H. rewrite omap_app, app_length in H. cbn [omap list_omap] in H.
  rewrite decide_True in H by done. cbn [length] in H.
  assert (N : forall l, length (omap (fun e => match e with ROpen p' _ _ => if decide (p' = p) then Some tt else None | _ => None end) l) = 0%nat -> ROpen p j o' ∉ l).
  { clear. intros l Hl Hin. apply nil_length_inv in Hl. assert (tt ∈ omap (fun e => match e with ROpen p' _ _ => if decide (p' = p) then Some tt else None | _ => None end) l) as Hx.
    { apply elem_of_list_omap. eexists. split; [exact Hin|]. cbv beta iota. by rewrite decide_True. } rewrite Hl in Hx. by apply elem_of_nil in Hx. }
  apply elem_of_app in Hj as [Hj|Hj]; [exfalso; eapply (N a); [lia|done]|]. apply elem_of_cons in Hj as [[= <- <-]|Hj]; [done|]. exfalso. eapply (N b); [lia|done].
Qed.

Lemma stored_trace cfg st rec t q : inv_good cfg st rec -> z_parts st !! home cfg t = Some q ->
  of_trace t (omap dec (stored st)) = of_trace t (omap dec (q_log q)).
Proof.
  intros [_ HG] Hq. unfold stored. rewrite <- (take_drop_middle _ _ _ Hq) at 1. rewrite map_app, concat_app, !omap_app, !of_trace_app. cbn [map concat].
  rewrite omap_app, of_trace_app.
  assert (N : forall l, (forall q', q' ∈ l -> exists p, p <> home cfg t /\ z_parts st !! p = Some q') -> of_trace t (omap dec (concat (map q_log l))) = []).
  { intros l Hl. apply of_trace_nil. intros s Hs Et. apply elem_of_list_omap in Hs as (m & Hm & Hd). apply elem_of_list_In, in_concat in Hm as (lg & Hlg & Hm).
    apply in_map_iff in Hlg as (q' & <- & Hq'). apply elem_of_list_In in Hq', Hm. destruct (Hl _ Hq') as (p & Hp & Hpq). specialize (HG _ _ Hpq).
    rewrite Forall_forall in HG. destruct (HG _ Hm) as ((s' & _ & Hd' & Hkey & _) & Hpp). assert (s' = s) as -> by congruence.
    apply Hp. rewrite <- Hpp. rewrite <- Et. by apply home_part. }
  rewrite (N (take _ _)).
  - rewrite (N (drop _ _)); [by rewrite app_nil_r|]. intros q' Hq'. apply elem_of_list_lookup in Hq' as [k Hk]. rewrite lookup_drop in Hk. eexists. split; [|exact Hk]. lia.
  - intros q' Hq'. apply elem_of_list_lookup in Hq' as [k Hk]. apply lookup_take_Some in Hk as [Hk Hl]. exists k. split; [lia|done].
Qed.

Lemma meeting cfg n parts evs st rec t i x q : reached cfg n parts evs st rec ->
  z_parts st !! home cfg t = Some q -> opened rec (home cfg t) = 1%nat -> ROpen (home cfg t) i 0 ∈ rec ->
  length (handled rec (home cfg t)) = length (q_log q) -> ~ crashed rec i -> z_proxies st !! i = Some x -> x_kafka x = [] ->
  (exists so sl, Forall2 carries (outgoing_msgs st) so /\ Forall2 carries (lost_msgs rec) sl /\
     of_trace t (puts rec) ≡ₚ of_trace t (received rec i) ++ of_trace t (outgoing_spans st ++ so ++ sl ++ lost_spans rec)) /\
  forall j, j <> i -> of_trace t (received rec j) = [].
Proof.
  intros H Hq Hop Hi Hlen Hcr Hx Hk.
  assert (HO : forall j o, ROpen (home cfg t) j o ∈ rec -> j = i) by (intros j o Hj; by destruct (opened_unique _ _ _ _ _ _ Hop Hi Hj)).
  split; [|intros j Hj; by eapply others_none]. rewrite (received_calls _ _ _ _ _ _ _ _ _ H HO Hcr Hx Hk).
  pose proof (reached_all _ _ _ _ _ _ H) as (HG & _ & _ & HOn & _ & HLs & _).
  destruct (HOn _ _ Hq) as [_ H1]. destruct (H1 Hop) as (o & nn & i' & Hn & Ho & Hh & _).
  destruct (opened_unique _ _ _ _ _ _ Hop Hi Ho) as [-> ->]. rewrite Hh, seq_length, Nat.sub_0_r in Hlen. subst nn. rewrite Nat.sub_0_r in Hh.
  destruct (calls_handled _ _ _ _ _ _ _ _ H Hq) as [Ec _]. rewrite Hh in Ec. pose proof (omap_seq_dec (q_log q) 0) as Es. rewrite Nat.sub_0_r, drop_0 in Es. rewrite Es in Ec.
  exists (omap dec (outgoing_msgs st)), (omap dec (lost_msgs rec)). split; [by eapply good_all, out_good|]. split; [by eapply good_all|].
  rewrite (of_trace_perm t _ _ (puts_perm _ _ _ _ _ _ H)), Ec. rewrite !of_trace_app, (stored_trace _ _ _ _ _ HG Hq). solve_Permutation.
Qed.
