(** The program has no data races (C92): who uses what in each state of [RaceModel]. *)
From Verif Require Import Base RaceSpec RaceProofs RaceModel.
Local Open Scope nat_scope.

Notation hold := (holder thread chan lock place).
Notation stat := (status thread chan lock place).
Implicit Types (tr : log) (o : place -> stat) (s : state) (h : hold).

Definition counts tr : chan -> nat := fun c => recvs c tr.

Definition enc_has (e : enc) (x : place) : Prop :=
  match x with
  | LEncoder n => n = e_id e
  | LSlab a k => a = fst (e_buf e) /\ snd (e_buf e) <= k \/ a = fst (e_slices e) /\ snd (e_slices e) <= k
  | _ => False
  end.
Global Instance enc_has_dec e x : Decision (enc_has e x).
Proof. destruct x; cbn [enc_has]; apply _. Defined.
Definition send_has (d : sender) (x : place) : Prop :=
  match d with
  | SIdle => False
  | SSpan m => exists n, m = Some n /\ x = LMap n
  | SEnc m e msg => (exists n, m = Some n /\ x = LMap n) \/ enc_has e x \/ x ∈ msg
  | SMsg msg => x ∈ msg
  end.
Definition fwd_has (f : forward) (x : place) : Prop := match f with FConv l => x ∈ l | _ => False end.

(** What only [h] uses. *)
Definition has (r : chan -> nat) s h x : Prop :=
  match h with
  | HT t => (exists m, s_lock s m = Some t /\ x = protected m) \/ x ∈ map LPooled (w_pool (s_work s t)) \/ x ∈ maps (w_out (s_work s t) ++ w_maps (s_work s t)) \/
      t = TSender /\ send_has (s_send s) x \/ t = TCorrector /\ x ∈ s_table s \/ t = TForwarder /\ fwd_has (s_fwd s) x \/ t = TSink /\ x ∈ s_batch s
  | HM c n => exists k msg, s_queue s c !! k = Some msg /\ n = r c + k /\ x ∈ m_own msg
  | HL m => s_lock s m = None /\ x = protected m
  | HP p => (exists n refs, p = LPooled n /\ (n, refs) ∈ s_pool s /\ x = p) \/ exists e, e ∈ s_encs s /\ p = LEncoder (e_id e) /\ enc_has e x
  end.

(** What [h] can read. *)
Definition refers (r : chan -> nat) s h x : Prop :=
  match h with
  | HT t => x ∈ s_see s t \/ exists m, s_lock s m = Some t /\ x ∈ s_kept s m
  | HM c n => exists k msg, s_queue s c !! k = Some msg /\ n = r c + k /\ x ∈ m_refs msg
  | HL m => s_lock s m = None /\ x ∈ s_kept s m
  | HP p => exists n refs, p = LPooled n /\ (n, refs) ∈ s_pool s /\ x ∈ refs
  end.

Definition address (x : place) : option nat :=
  match x with LMap n | LCell n | LBytes n | LPooled n | LEncoder n | LSlab n _ | LBatch n => Some n | LCache | LRing => None end.

Definition enc_ok (e : enc) : Prop := fst (e_buf e) <> fst (e_slices e).
Definition carved (e : enc) (msg : list place) : Prop := forall x, x ∈ msg -> (exists a k, x = LSlab a k) /\ ~ enc_has e x.

Record tidy (r sd : chan -> nat) s : Prop := {
  ti_pool : NoDup (map fst (s_pool s));
  ti_encs : NoDup (map e_id (s_encs s));
  ti_work t : NoDup (w_out (s_work s t) ++ w_maps (s_work s t));
  ti_enc e : e ∈ s_encs s -> enc_ok e;
  ti_lock m t : s_lock s m = Some t -> may_lock t m = true;
  ti_idle t : is_worker t = false -> s_work s t = Worker [] [] [];
  ti_send : match s_send s with SEnc m e msg => enc_ok e /\ carved e msg | _ => True end;
  ti_count c : sd c = r c + length (s_queue s c) }.

Record good tr o s : Prop := {
  gd_sound : sound tr o;
  gd_has h x : has (counts tr) s h x -> o x = Owned h;
  gd_refs h x : refers (counts tr) s h x -> o x = Shared /\ aware tr h x;
  gd_fresh x n : address x = Some n -> s_next s <= n -> o x = Fresh;
  gd_tidy : tidy (counts tr) (fun c => sends c tr) s }.

(** A change of the status of some places. *)
Definition mv (P : place -> Prop) `{forall x, Decision (P x)} (v : stat) o : place -> stat := fun x => if decide (P x) then v else o x.

Lemma counts_nil tr : counts (tr ++ []) = counts tr.
Proof. by rewrite app_nil_r. Qed.

(** The general form of a step. *)
Lemma good_step tr l o s s' (P : place -> Prop) `{forall x, Decision (P x)} v (f : hold -> hold -> Prop) :
  good tr o s -> sound (tr ++ l) (mv P v o) -> (forall x, P x -> o x <> Shared) ->
  (forall h h' x, h = h' \/ f h h' -> aware tr h x -> o x = Shared -> aware (tr ++ l) h' x) ->
  (forall h x, has (counts (tr ++ l)) s' h x -> P x /\ v = Owned h \/ ~ P x /\ has (counts tr) s h x) ->
  (forall h x, refers (counts (tr ++ l)) s' h x -> P x /\ v = Shared /\ aware (tr ++ l) h x \/ exists h0, refers (counts tr) s h0 x /\ (h0 = h \/ f h0 h)) ->
  s_next s <= s_next s' -> (forall x n, P x -> address x = Some n -> n < s_next s') ->
  tidy (counts (tr ++ l)) (fun c => sends c (tr ++ l)) s' ->
  good (tr ++ l) (mv P v o) s'.
Proof.
  intros [G1 G2 G3 G4 G5] Hs HP Hf Hh Hr Hn Hx Ht. split; [done| | | |done].
  - intros h x H1. unfold mv. destruct (Hh h x H1) as [[Hp ->]|[Hp H2]].
    + by rewrite decide_True.
    + rewrite decide_False by done. by apply G2.
  - intros h x H1. unfold mv. destruct (Hr h x H1) as [(Hp & -> & Ha)|(h0 & H2 & H3)].
    + by rewrite decide_True.
    + destruct (G3 _ _ H2) as [E Ha]. rewrite decide_False by (intros Hp; by apply (HP x Hp)). split; [done|]. by eapply Hf.
  - intros x n Ha Hle. unfold mv. rewrite decide_False; [apply (G4 x n); [done|lia]|]. intros Hp. specialize (Hx x n Hp Ha). lia.
Qed.

(** Synchronisation: places [P], which [h] used, pass to [v]. *)
Lemma good_sync tr t (a : act) o s s' (P : place -> Prop) `{forall x, Decision (P x)} v h :
  (match a with ARead _ | AWrite _ => False | _ => True end) -> good tr o s -> (forall x, P x -> o x = Owned h) ->
  (v = Shared \/ exists h', v = Owned h' /\ flow tr t a h h') ->
  (forall h1 x, has (counts (tr ++ [(t, a)])) s' h1 x -> P x /\ v = Owned h1 \/ has (counts tr) s h1 x /\ (h1 = h -> ~ P x)) ->
  (forall h1 x, refers (counts (tr ++ [(t, a)])) s' h1 x -> P x /\ v = Shared /\ (h = h1 \/ flow tr t a h h1) \/ exists h0, refers (counts tr) s h0 x /\ (h0 = h1 \/ flow tr t a h0 h1)) ->
  s_next s <= s_next s' -> tidy (counts (tr ++ [(t, a)])) (fun c => sends c (tr ++ [(t, a)])) s' ->
  good (tr ++ [(t, a)]) (mv P v o) s'.
Proof.
  intros Ha G HP Hv Hh Hr Hn Ht.
  assert (Hw : forall h h' x, h = h' \/ flow tr t a h h' -> aware tr h x -> aware (tr ++ [(t, a)]) h' x).
  { intros h1 h2 x [->|Hf] Hx; [|by eapply aware_flow]. apply aware_snoc; [|done]. intros ->. done. }
  eapply (good_step _ _ _ _ _ _ _ (flow tr t a)); try done.
  - apply (sound_sync _ _ _ o); [done| |apply G]. intros x. unfold mv. case_decide as Hp; [|by left]. right. right. rewrite (HP x Hp).
    destruct Hv as [->|(h' & -> & Hf)]; done.
  - intros x Hp. by rewrite (HP x Hp).
  - intros h1 h2 x Hf Hx _. by eapply Hw.
  - intros h1 x Hx. destruct (Hh h1 x Hx) as [?|[Ho Hp]]; [by left|]. right. split; [|done]. intros Hq. apply Hp; [|done].
    pose proof (gd_has _ _ _ G _ _ Ho) as E. rewrite (HP x Hq) in E. by injection E.
  - intros h1 x Hx. destruct (Hr h1 x Hx) as [(Hp & -> & Hf)|Ho]; [|by right]. left. split; [done|]. split; [done|]. eapply Hw; [done|]. eapply aware_own; [apply G|by apply HP].
  - intros x n Hp Hx. destruct (decide (n < s_next s')) as [|Hlt]; [done|]. assert (o x = Fresh) as E by (apply (gd_fresh _ _ _ G x n); [done|lia]). rewrite (HP x Hp) in E. done.
Qed.

(** No action: places that [h] uses become finished, or new places are taken. *)
Lemma good_silent tr o s s' (P : place -> Prop) `{forall x, Decision (P x)} v h :
  good tr o s -> (forall x, P x -> o x = Fresh \/ o x = Owned h /\ v = Shared) ->
  (forall h1 x, has (counts tr) s' h1 x -> P x /\ v = Owned h1 \/ has (counts tr) s h1 x /\ (h1 = h -> ~ (P x /\ v = Shared))) ->
  (forall h1 x, refers (counts tr) s' h1 x -> P x /\ v = Shared /\ o x = Owned h1 \/ refers (counts tr) s h1 x) ->
  s_next s <= s_next s' -> (forall x n, P x -> address x = Some n -> n < s_next s') ->
  tidy (counts tr) (fun c => sends c tr) s' ->
  good tr (mv P v o) s'.
Proof.
  intros G HP Hh Hr Hn Hx Ht. rewrite <- (app_nil_r tr). eapply (good_step _ _ _ _ _ _ _ (fun _ _ => False)); try done.
  - rewrite app_nil_r. apply (sound_silent _ o); [|apply G]. intros x. unfold mv. case_decide as Hp; [|by left]. right.
    destruct (HP x Hp) as [->|[-> ->]]; [by left|by right].
  - intros x Hp. destruct (HP x Hp) as [->|[-> _]]; done.
  - rewrite app_nil_r. intros h1 h2 x [->|[]]. done.
  - rewrite app_nil_r. intros h1 x Hx1. destruct (Hh h1 x Hx1) as [?|[Ho Hp]]; [by left|]. right. split; [|done]. intros Hq.
    pose proof (gd_has _ _ _ G _ _ Ho) as E. destruct (HP x Hq) as [E'|[E' ->]]; rewrite E' in E; [done|]. injection E as <-. by apply Hp.
  - rewrite app_nil_r. intros h1 x H1. destruct (Hr h1 x H1) as [(Hp & -> & Ho)|Ho]; [left|right; exists h1; by split; [|left]].
    split; [done|]. split; [done|]. eapply aware_own; [apply G|done].
  - by rewrite app_nil_r.
Qed.

Lemma recvs_access tr t x w c : recvs c (tr ++ access t x w) = recvs c tr.
Proof. rewrite recvs_app. unfold access. destruct w; cbn; lia. Qed.
Lemma sends_access tr t x w c : sends c (tr ++ access t x w) = sends c tr.
Proof. rewrite sends_app. unfold access. destruct w; cbn; lia. Qed.

Lemma has_ext r r' s h x : (forall c, r c = r' c) -> has r s h x -> has r' s h x.
Proof. intros E. destruct h; cbn [has]; try done. intros (k & msg & H1 & -> & H2). rewrite E. eauto. Qed.
Lemma refers_ext r r' s h x : (forall c, r c = r' c) -> refers r s h x -> refers r' s h x.
Proof. intros E. destruct h; cbn [refers]; try done. intros (k & msg & H1 & -> & H2). rewrite E. eauto. Qed.
Lemma tidy_ext r r' d d' s : (forall c, r c = r' c) -> (forall c, d c = d' c) -> tidy r d s -> tidy r' d' s.
Proof. intros E1 E2 []. split; try done. intros c. by rewrite <- E1, <- E2. Qed.

(** Accesses to what the goroutine uses alone, or reads. *)
Lemma good_access tr o s t x w : good tr o s -> has (counts tr) s (HT t) x \/ w = false /\ refers (counts tr) s (HT t) x -> good (tr ++ access t x w) o s.
Proof.
  intros G Hx. pose proof G as [G1 G2 G3 G4 G5].
  assert (Ho : o x = Owned (HT t) \/ w = false /\ o x = Shared /\ aware tr (HT t) x) by (destruct Hx as [Hx|[Hw Hx]]; [left; by apply G2|right; by split; [|apply G3]]).
  split.
  - unfold access. destruct w; [apply sound_write; [|done]; by destruct Ho as [Ho|[? _]]|]. apply sound_read; [|done]. destruct Ho as [Ho|[_ Ho]]; [by left|by right].
  - intros h y Hy. apply G2. eapply has_ext; [|exact Hy]. intros c. apply recvs_access.
  - intros h y Hy. assert (Hy' : refers (counts tr) s h y) by (eapply refers_ext; [|exact Hy]; intros c; apply recvs_access). destruct (G3 _ _ Hy') as [E A]. split; [done|].
    apply aware_snoc; [|done]. destruct w; [|done]. intros [= ->]. destruct Ho as [Ho|[? _]]; [congruence|done].
  - done.
  - eapply tidy_ext; [| |exact G5]; intros c; unfold counts; cbn beta; by rewrite ?recvs_access, ?sends_access.
Qed.

(** A new place is written: for the goroutine alone, or finished at once. *)
Lemma good_new tr o s s' t x v : good tr o s -> address x = Some (s_next s) -> v = Owned (HT t) \/ v = Shared -> s_next s' = S (s_next s) ->
  (forall h y, has (counts tr) s' h y -> y = x /\ v = Owned h \/ has (counts tr) s h y) ->
  (forall h y, refers (counts tr) s' h y -> y = x /\ v = Shared /\ h = HT t \/ refers (counts tr) s h y) ->
  tidy (counts tr) (fun c => sends c tr) s' ->
  good (tr ++ access t x true) (mv (fun y => y = x) v o) s'.
Proof.
  intros G Hx Hv Hn Hh Hr Ht. pose proof G as [G1 G2 G3 G4 G5].
  assert (Ex : o x = Fresh) by (apply (G4 x (s_next s)); [done|lia]).
  assert (S1 : sound tr (mv (fun y => y = x) (Owned (HT t)) o)).
  { apply (sound_silent _ o); [|done]. intros y. unfold mv. case_decide as E; [|by left]. right. left. by rewrite E. }
  assert (S2 : sound (tr ++ access t x true) (mv (fun y => y = x) (Owned (HT t)) o)).
  { apply sound_write; [|done]. unfold mv. by rewrite decide_True. }
  assert (C : forall c, counts (tr ++ access t x true) c = counts tr c) by (intros c; apply recvs_access).
  eapply (good_step _ _ _ _ _ _ _ (fun _ _ => False)); try done.
  - destruct Hv as [->| ->]; [done|]. apply (sound_silent _ (mv (fun y => y = x) (Owned (HT t)) o)); [|done]. intros y. unfold mv. case_decide as E; [|by left]. right. by right.
  - intros y ->. by rewrite Ex.
  - intros h h' y [->|[]] Ha Ey. apply aware_snoc; [|done]. intros [= ->]. congruence.
  - intros h y Hy. eapply has_ext in Hy; [|exact C]. destruct (Hh h y Hy) as [?|Ho]; [by left|]. right. split; [|done]. intros ->.
    apply G2 in Ho. congruence.
  - intros h y Hy. eapply refers_ext in Hy; [|exact C]. destruct (Hr h y Hy) as [(-> & -> & ->)|Ho]; [left|right; exists h; by split; [|left]].
    split; [done|]. split; [done|]. eapply aware_own; [exact S2|]. unfold mv. by rewrite decide_True.
  - lia.
  - intros y n -> Hy. rewrite Hx in Hy. injection Hy as <-. lia.
  - eapply tidy_ext; [| |exact Ht]; intros c; unfold counts; cbn beta; by rewrite ?recvs_access, ?sends_access.
Qed.
