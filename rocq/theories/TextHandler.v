(** The texts of the answers (C105). *)
From Verif Require Import Base IdModel SpanModel JsonModel LiteralModel CodecModel JaegerModel HandlerModel JsonPure JsonSpec ParseSpec JsonProofs JsonSim HandlerSpec HandlerProofs
  TextModel TextErase TextPure TextSim TextSpec TextCauses TextTheorems.

(* ---------- more steps ---------- *)

Definition mono {A} (r r' : wres A) : Prop := r = WFuel \/ r' = r.
Lemma mono_bind {A B} (r r' : wres A) (f f' : A -> bytes -> wres B) : mono r r' -> (forall a l, mono (f a l) (f' a l)) -> mono (wbind r f) (wbind r' f').
Proof. intros [->| ->] H; [by left|]. destruct r; cbn [wbind]; try (by right). apply H. Qed.
Lemma mono_refl {A} (r : wres A) : mono r r.
Proof. by right. Qed.

Lemma skips_mono fin cap : forall d d', (d <= d')%nat ->
  (forall t l, mono (w_skip fin d cap t l) (w_skip fin d' cap t l)) /\
  (forall l, mono (w_skip_elements fin d cap l) (w_skip_elements fin d' cap l)) /\
  (forall l, mono (w_skip_members fin d cap l) (w_skip_members fin d' cap l)).
Proof.
  induction d as [|d IH]; intros d' Hd. { split; [|split]; by left. }
  destruct d' as [|d']; [lia|]. destruct (IH d' ltac:(lia)) as (IH1 & IH2 & IH3). split; [|split].
  - intros t l. cbn [w_skip]. destruct t; try apply mono_refl; (apply mono_bind; [apply mono_refl|]; intros _ l1); auto.
  - intros l. cbn [w_skip_elements]. apply mono_bind; [apply mono_refl|]. intros t l1. destruct (decide _); [apply mono_refl|].
    apply mono_bind; [apply IH1|]. intros _ l2. apply IH2.
  - intros l. cbn [w_skip_members]. apply mono_bind; [apply mono_refl|]. intros t l1. destruct (decide _); [apply mono_refl|].
    apply mono_bind; [apply mono_refl|]. intros _ l2. apply mono_bind; [apply mono_refl|]. intros t2 l3. apply mono_bind; [apply IH1|]. intros _ l4. apply IH3.
Qed.
Lemma op_mono fin cap o d d' l : (d <= d')%nat -> mono (w_op fin d cap o l) (w_op fin d' cap o l).
Proof.
  intros Hd. destruct o; try apply mono_refl. cbn [w_op]. apply mono_bind; [|intros; apply mono_refl].
  apply mono_bind; [apply mono_refl|]. intros t l1. by apply skips_mono.
Qed.

(** [q] goes on where [p] runs out of steps. *)
Inductive goes_on {A} : tprog A -> tprog A -> Prop :=
  | goes_ret a : goes_on (TRet a) (TRet a)
  | goes_fail a m : goes_on (TFail a m) (TFail a m)
  | goes_call o k k' a w : (forall t, goes_on (k t) (k' t)) -> goes_on (TCall o k a w) (TCall o k' a w)
  | goes_out q : goes_on TOut q.
Lemma goes_refl {A} (p : tprog A) : goes_on p p.
Proof. induction p; by constructor. Qed.
Lemma goes_then {A B} (p q : tprog A) (f : A -> B) k k' w : goes_on p q -> (forall a, goes_on (k a) (k' a)) -> goes_on (tthen p f k w) (tthen q f k' w).
Proof. intros H Hk. induction H; cbn [tthen]; try (by constructor). apply Hk. Qed.
Lemma goes_exec {A} fin cap d d' (p q : tprog A) : (d <= d')%nat -> goes_on p q -> forall l,
  w_exec fin d cap p l = VHang \/ w_exec fin d' cap q l = w_exec fin d cap p l.
Proof.
  intros Hd. induction 1 as [| |o k k' a w _ IH|]; intros l; cbn [w_exec]; auto.
  destruct (op_mono fin cap o d d' l Hd) as [->| ->]; [by left|]. destruct (w_op fin d cap o l); auto.
Qed.

Definition dgoes {T} (d d' : tdecoder T) : Prop := forall t, goes_on (d t) (d' t).
Lemma field_goes {T A} (get : T -> A) put d d' : dgoes d d' -> dgoes (t_field get put d) (t_field get put d').
Proof. intros H t. apply goes_then; [apply H|]. intros a. constructor. Qed.
Lemma map_goes n n' : (n <= n')%nat -> dgoes (t_map n) (t_map n').
Proof.
  intros Hn t. constructor. intros _. generalize (∅ : gmap gostring gostring) as result. revert n' Hn. induction n as [|n IH]; intros n' Hn result; [constructor|].
  destruct n' as [|n']; [lia|]. cbn [t_map_loop]. constructor. intros next. destruct (decide _); [apply goes_refl|].
  apply goes_then; [apply goes_refl|]. intros key. apply goes_then; [apply goes_refl|]. intros value. apply IH. lia.
Qed.
Lemma slice_goes {T} s (zero : T) d d' n n' : (n <= n')%nat -> dgoes d d' -> dgoes (t_slice s zero d n) (t_slice s zero d' n').
Proof.
  intros Hn Hd t. constructor. intros _. generalize 0%nat as idx. revert t n' Hn. induction n as [|n IH]; intros t n' Hn idx; [constructor|].
  destruct n' as [|n']; [lia|]. cbn [t_slice_loop]. constructor. intros next. destruct (decide _); [apply goes_refl|]. cbv zeta.
  apply goes_then; [apply Hd|]. intros el. apply IH. lia.
Qed.
Lemma array_goes {T} pre s (d d' : tdecoder T) n n' : (n <= n')%nat -> dgoes d d' -> dgoes (t_array pre s d n) (t_array pre s d' n').
Proof.
  intros Hn Hd t. constructor. intros _. generalize 0%nat as idx. revert t n' Hn. induction n as [|n IH]; intros t n' Hn idx; [constructor|].
  destruct n' as [|n']; [lia|]. cbn [t_array_loop]. constructor. intros next. destruct (decide _); [apply goes_refl|].
  destruct (t !! idx); [apply goes_then; [apply Hd|]; intros el; apply IH; lia|]. constructor. intros _. apply IH. lia.
Qed.
Lemma struct_goes {T} (fs fs' : list (gostring * tdecoder T)) n n' : (n <= n')%nat -> Forall2 (fun f f' => f.1 = f'.1 /\ dgoes f.2 f'.2) fs fs' ->
  dgoes (t_struct fs n) (t_struct fs' n').
Proof.
  intros Hn Hf t. constructor. intros _. revert t n' Hn. induction n as [|n IH]; intros t n' Hn; [constructor|].
  destruct n' as [|n']; [lia|]. cbn [t_struct_loop]. constructor. intros next. destruct (decide _); [apply goes_refl|]. constructor. intros key.
  assert (Hl : match t_lookup fs (t_val key), t_lookup fs' (t_val key) with Some d, Some d' => dgoes d d' | None, None => True | _, _ => False end).
  { clear -Hf. induction Hf as [|[m d] [m' d'] fs fs' [E Hd] _ IH]; cbn [t_lookup]; [done|]. cbn in E. subst m'. by destruct (decide (m = t_val key)). }
  destruct (t_lookup fs (t_val key)) as [d|], (t_lookup fs' (t_val key)) as [d'|]; try done.
  - apply goes_then; [apply Hl|]. intros t'. apply IH. lia.
  - constructor. intros _. apply IH. lia.
Qed.
Lemma endpoint_goes n n' : (n <= n')%nat -> dgoes (t_endpoint n) (t_endpoint n').
Proof. intros Hn. apply struct_goes; [done|]. constructor; [|constructor]. split; [done|]. intros t. apply goes_refl. Qed.

Ltac fields_go := repeat match goal with |- Forall2 _ (_ :: _) (_ :: _) => constructor; [split; [reflexivity|cbn [snd]; apply field_goes;
  first [by apply map_goes|by apply endpoint_goes|(intros ?; apply goes_refl)|idtac]]|]
  | |- Forall2 _ [] [] => constructor end.

Lemma v2_goes n n' : (n <= n')%nat -> goes_on (t_v2_prog n) (t_v2_prog n').
Proof. intros Hn. apply slice_goes; [done|]. intros t. apply struct_goes; [done|]. unfold t_v2_fields. fields_go. Qed.
Lemma v1_goes n n' pool : (n <= n')%nat -> goes_on (t_v1_prog n pool) (t_v1_prog n' pool).
Proof.
  intros Hn. apply slice_goes; [done|]. intros t. apply struct_goes; [done|]. unfold t_v1_fields. fields_go.
  - apply slice_goes; [done|]. apply struct_goes; [done|]. unfold t_ba_fields. fields_go.
  - apply array_goes; [done|]. apply struct_goes; [done|]. unfold t_annot_fields. fields_go.
Qed.

(* ---------- verdicts ---------- *)

(** What the endpoint says about a body [l], independently of the way it is read and of pooled memory. *)
Definition verdict (ep : endpoint) (fin : bytes) (fuel cap : nat) (l : bytes) : vres :=
  match ep with EV1 => w_exec fin fuel cap (t_v1_prog fuel []) l | EV2 => w_exec fin fuel cap (t_v2_prog fuel) l | EJaeger => VDone end.

Lemma verdict_fuel ep fin cap l n n' : (n <= n')%nat -> verdict ep fin n cap l <> VHang -> verdict ep fin n' cap l = verdict ep fin n cap l.
Proof.
  intros Hn. destruct ep; cbn [verdict]; [| |done].
  - destruct (goes_exec fin cap n n' _ _ Hn (v1_goes n n' [] Hn) l); done.
  - destruct (goes_exec fin cap n n' _ _ Hn (v2_goes n n' Hn) l); done.
Qed.
Lemma verdict_steps ep fin cap l n n' : verdict ep fin n cap l <> VHang -> verdict ep fin n' cap l <> VHang -> verdict ep fin n' cap l = verdict ep fin n cap l.
Proof.
  intros H H'. destruct (Nat.le_ge_cases n n'); [by apply verdict_fuel|]. symmetry. by apply verdict_fuel.
Qed.

(** The reply for a verdict, as far as status and body go. *)
Definition replies (ep : endpoint) (v : vres) (r : reply) : Prop :=
  match v with
  | VDone => y_status r = 202 /\ y_body r = []
  | VErr m | VEnd m => y_status r = 400 /\ y_body r = heading ep ++ m ++ [10]
  | VHang => False
  end.

Lemma ending_text oth e : no_eager_error e -> ending oth (end_text oth e) e.
Proof. destruct e as [?|[]]; cbn; [done| |done]. intros H. by apply H. Qed.

Lemma parser_replies lib env ep chunks e r : ep = EV1 \/ ep = EV2 -> (5 <= length (n_buf env))%nat -> no_eager_error e ->
  xmap t_answer (t_parser lib env ep (Src chunks e)) = XDone r ->
  replies ep (verdict ep (end_text (x_read lib) e) (n_fuel env) (length (n_buf env)) (concat chunks)) r.
Proof.
  intros Hep Hb He Hr. pose proof (ending_text (x_read lib) e He) as Hend. set (fin := end_text (x_read lib) e) in *.
  assert (HT := T_new (x_read lib) fin (length (n_buf env)) chunks e (n_buf env) eq_refl Hend).
  destruct Hep as [-> | ->]; cbn [verdict t_parser] in *.
  - pose proof (exec_sim (x_read lib) fin _ (n_fuel env) (t_v1_prog (n_fuel env) (n_pool env)) Hb _ _ HT) as HS. unfold TextJsonV1 in Hr.
    rewrite (alike_exec free fin _ _ _ _ (v1_alike (n_fuel env) [] (n_pool env))).
    destruct (texec _ _ _ _) as [[s [m|]]| |]; cbn [xmap fst snd t_answer] in *; try done; injection Hr as <-.
    + destruct HS as [-> | ->]; (split; [done|]); unfold http_error, with_message, heading; cbn [y_body]; rewrite <- !app_assoc; reflexivity.
    + by rewrite HS.
  - pose proof (exec_sim (x_read lib) fin _ (n_fuel env) (t_v2_prog (n_fuel env)) Hb _ _ HT) as HS. unfold TextJsonV2 in Hr.
    destruct (texec _ _ _ _) as [[s [m|]]| |]; cbn [xmap fst snd t_answer] in *; try done; injection Hr as <-.
    + destruct HS as [-> | ->]; (split; [done|]); unfold http_error, with_message, heading; cbn [y_body]; rewrite <- !app_assoc; reflexivity.
    + by rewrite HS.
Qed.

Lemma handle_replies lib env q chunks e r : parsed q -> reads env q (Src chunks e) -> (5 <= length (n_buf env))%nat -> no_eager_error e ->
  t_handle lib env q = XDone r ->
  replies (q_endpoint q) (verdict (q_endpoint q) (end_text (x_read lib) e) (n_fuel env) (length (n_buf env)) (concat chunks)) r.
Proof.
  intros Hp Hr Hb He Hh. assert (Hs : t_handle_spans lib env q (Src chunks e) = XDone r).
  { unfold t_handle in Hh. destruct Hr as [[E Hg]|[E Hg]]; [rewrite decide_True, Hg in Hh by done; done|]. rewrite decide_False in Hh by done. by rewrite <- Hg in Hh. }
  unfold t_handle_spans in Hs. destruct Hp as [[E Hj]|E]; rewrite E in *.
  - apply contains_spec in Hj. rewrite Hj in Hs. apply (parser_replies lib env EV1); auto.
  - apply (parser_replies lib env EV2); auto.
Qed.

Lemma parsed_endpoint q : parsed q -> q_endpoint q = EV1 \/ q_endpoint q = EV2.
Proof. intros [[H _]|H]; auto. Qed.

Lemma verdict_says ep fin fuel cap l m : ep = EV1 \/ ep = EV2 -> verdict ep fin fuel cap l = VErr m \/ verdict ep fin fuel cap l = VEnd m ->
  exists c m', c ∈ contexts ep /\ cause fin l m' /\ m = c ++ m'.
Proof.
  intros Hep Hv. assert (H : in_list fin l (contexts ep) m).
  { destruct Hep as [-> | ->]; cbn [verdict] in Hv.
    - pose proof (errs_exec fin l _ fuel cap (t_v1_prog fuel []) None l ltac:(done) (v1_errs fin l fuel []) ltac:(done)) as H. by destruct Hv as [Hv|Hv]; rewrite Hv in H.
    - pose proof (errs_exec fin l _ fuel cap (t_v2_prog fuel) None l ltac:(done) (v2_errs fin l fuel) ltac:(done)) as H. by destruct Hv as [Hv|Hv]; rewrite Hv in H. }
  destruct H as (c & m' & H1 & H2 & H3). by exists c, m'.
Qed.

Lemma text_of_rejection lib env q chunks e r : parsed q -> reads env q (Src chunks e) -> (5 <= length (n_buf env))%nat -> no_eager_error e ->
  t_handle lib env q = XDone r -> y_status r = 400 ->
  exists c m, c ∈ contexts (q_endpoint q) /\ cause (end_text (x_read lib) e) (concat chunks) m /\ y_body r = heading (q_endpoint q) ++ c ++ m ++ [10].
Proof.
  intros Hp Hr Hb He Hh Hs. pose proof (handle_replies lib env q chunks e r Hp Hr Hb He Hh) as HV.
  assert (HS := fun m => verdict_says (q_endpoint q) (end_text (x_read lib) e) (n_fuel env) (length (n_buf env)) (concat chunks) m (parsed_endpoint q Hp)).
  destruct (verdict _ _ _ _ _) as [|m|m|]; cbn [replies] in HV; try done.
  - destruct HV as [HV _]. congruence.
  - destruct HV as [_ HV]. destruct (HS m) as (c & m' & H1 & H2 & ->); [by left|]. exists c, m'. split; [done|]. split; [done|]. by rewrite HV, <- app_assoc.
  - destruct HV as [_ HV]. destruct (HS m) as (c & m' & H1 & H2 & ->); [by right|]. exists c, m'. split; [done|]. split; [done|]. by rewrite HV, <- app_assoc.
Qed.

Lemma encode_rune_short c : (length (encode_rune c) <= 3)%nat.
Proof. pose proof (encode_rune_length c). lia. Qed.

Lemma Forall_short k (l : list bytes) : forallb (fun s => (length s <=? k)%nat) l = true -> forall s, s ∈ l -> (length s <= k)%nat.
Proof. rewrite forallb_forall. intros H s Hs%elem_of_list_In. specialize (H s Hs). lia. Qed.

Lemma cause_length fin body m : cause fin body m -> (length m <= 75 + length fin)%nat.
Proof.
  assert (Hk : forall s, s ∈ opening ++ closing ++ scalars -> (length s <= 15)%nat) by (apply Forall_short; vm_compute; reflexivity).
  assert (Hw : forall s, s ∈ wanted -> (length s <= 15)%nat) by (apply Forall_short; vm_compute; reflexivity).
  assert (Ho : forall s, s ∈ opening ++ closing -> (length s <= 15)%nat) by (apply Forall_short; vm_compute; reflexivity).
  assert (Hc : forall s, s ∈ closing -> (length s <= 15)%nat) by (apply Forall_short; vm_compute; reflexivity).
  destruct 1; unfold quote; rewrite ?app_length; cbn [str length];
    repeat match goal with |- context [encode_rune ?c] => pose proof (encode_rune_short c); generalize dependent (length (encode_rune c)); intros end;
    repeat match goal with H : ?s ∈ wanted |- _ => apply Hw in H | H : ?s ∈ opening ++ closing ++ scalars |- _ => apply Hk in H
           | H : ?s ∈ opening ++ closing |- _ => apply Ho in H | H : ?s ∈ closing |- _ => apply Hc in H end; try lia.
Qed.

Lemma text_length lib env q chunks e r : parsed q -> reads env q (Src chunks e) -> (5 <= length (n_buf env))%nat -> no_eager_error e ->
  t_handle lib env q = XDone r -> (length (y_body r) <= 255 + length (x_read lib))%nat.
Proof.
  intros Hp Hr Hb He Hh. destruct (decide (y_status r = 400)) as [Hs|Hs].
  - destruct (text_of_rejection lib env q chunks e r Hp Hr Hb He Hh Hs) as (c & m & Hc & Hm & ->).
    apply cause_length in Hm. assert (length (end_text (x_read lib) e) <= 18 + length (x_read lib))%nat.
    { destruct e; cbn [end_text]; rewrite ?app_length; cbn [str length]; lia. }
    assert (length c <= 111)%nat.
    { destruct (q_endpoint q); revert c Hc; apply Forall_short; vm_compute; reflexivity. }
    assert (length (heading (q_endpoint q)) <= 50)%nat by (destruct (q_endpoint q); vm_compute; lia).
    rewrite !app_length. cbn [length]. lia.
  - pose proof (handle_replies lib env q chunks e r Hp Hr Hb He Hh) as HV. destruct (verdict _ _ _ _ _); cbn [replies] in HV; try tauto.
    destruct HV as [_ ->]. cbn [length]. lia.
Qed.

Lemma same_text lib env env' q q' b b' r r' : parsed q -> parsed q' -> q_endpoint q = q_endpoint q' -> reads env q b -> reads env' q' b' ->
  same_bytes b b' -> no_eager_error (r_end b) -> no_eager_error (r_end b') -> end_text (x_read lib) (r_end b) = end_text (x_read lib) (r_end b') ->
  (5 <= length (n_buf env))%nat -> length (n_buf env) = length (n_buf env') ->
  t_handle lib env q = XDone r -> t_handle lib env' q' = XDone r' -> y_status r = y_status r' /\ y_body r = y_body r'.
Proof.
  intros Hp Hp' Eq Hr Hr' Hs He He' Ee Hb Eb Hh Hh'. destruct b as [cs e], b' as [cs' e']. unfold same_bytes in Hs. cbn [r_chunks r_end] in *.
  pose proof (handle_replies lib env q cs e r Hp Hr Hb He Hh) as HV. pose proof (handle_replies lib env' q' cs' e' r' Hp' Hr' ltac:(lia) He' Hh') as HV'.
  rewrite <- Eq, <- Ee, <- Eb, <- Hs in HV'.
  rewrite (verdict_steps _ _ _ _ (n_fuel env) (n_fuel env')) in HV'.
  - destruct (verdict _ _ _ _ _); cbn [replies] in *; intuition congruence.
  - intros E. by rewrite E in HV.
  - intros E. by rewrite E in HV'.
Qed.

Lemma verdict_grows ep fin fin' fuel cap l x :
  match verdict ep fin fuel cap l with
  | VDone => verdict ep fin' fuel cap (l ++ x) = VDone
  | VErr m => verdict ep fin' fuel cap (l ++ x) = VErr m
  | _ => True
  end.
Proof. destruct ep; cbn [verdict]; [apply exec_grows|apply exec_grows|done]. Qed.

Lemma verdict_end ep fin fuel cap l m : verdict ep fin fuel cap l = VEnd m -> exists p, m = p ++ fin.
Proof.
  destruct ep; cbn [verdict]; [| |done].
  - apply (plain_exec fin l _ fuel cap _ None l m ltac:(done) (v1_errs fin l fuel []) (v1_plain fuel [])). done.
  - apply (plain_exec fin l _ fuel cap _ None l m ltac:(done) (v2_errs fin l fuel) (v2_plain fuel)). done.
Qed.

Lemma final_text lib env env' q q' b b' more r r' : parsed q -> parsed q' -> q_endpoint q = q_endpoint q' -> reads env q b -> reads env' q' b' ->
  concat (r_chunks b') = concat (r_chunks b) ++ more -> no_eager_error (r_end b) -> no_eager_error (r_end b') ->
  (5 <= length (n_buf env))%nat -> length (n_buf env) = length (n_buf env') ->
  t_handle lib env q = XDone r -> t_handle lib env' q' = XDone r' ->
  (y_status r = 400 -> ~ exists p, y_body r = p ++ end_text (x_read lib) (r_end b) ++ [10]) -> y_status r' = y_status r /\ y_body r' = y_body r.
Proof.
  intros Hp Hp' Eq Hr Hr' Hs He He' Hb Eb Hh Hh' Hend. destruct b as [cs e], b' as [cs' e']. cbn [r_chunks r_end] in *.
  pose proof (handle_replies lib env q cs e r Hp Hr Hb He Hh) as HV. pose proof (handle_replies lib env' q' cs' e' r' Hp' Hr' ltac:(lia) He' Hh') as HV'.
  rewrite <- Eq, <- Eb, Hs in HV'. set (fin := end_text (x_read lib) e) in *. set (fin' := end_text (x_read lib) e') in *.
  pose proof (verdict_grows (q_endpoint q) fin fin' (n_fuel env) (length (n_buf env)) (concat cs) more) as HG.
  pose proof (verdict_end (q_endpoint q) fin (n_fuel env) (length (n_buf env)) (concat cs)) as HE.
  destruct (verdict (q_endpoint q) fin (n_fuel env) (length (n_buf env)) (concat cs)) as [|m|m|] eqn:E; cbn [replies] in HV; [| | |done].
  - rewrite (verdict_steps _ _ _ _ (n_fuel env) (n_fuel env')) in HV' by (rewrite ?HG; (done || (intros E'; by rewrite E' in HV'))).
    rewrite HG in HV'. cbn [replies] in HV'. intuition congruence.
  - rewrite (verdict_steps _ _ _ _ (n_fuel env) (n_fuel env')) in HV' by (rewrite ?HG; (done || (intros E'; by rewrite E' in HV'))).
    rewrite HG in HV'. cbn [replies] in HV'. intuition congruence.
  - exfalso. destruct HV as [Hst HV]. destruct (HE m eq_refl) as [p ->]. apply (Hend Hst). exists (heading (q_endpoint q) ++ p). by rewrite HV, <- !app_assoc.
Qed.

Lemma answer_texts lib env q : handle env q = xmap (fun r => map Put (y_puts r) ++ [Status (y_status r)]) (t_handle lib env q).
Proof. rewrite <- (handle_texts lib). done. Qed.

Lemma answer_shape lib env q r : t_handle lib env q = XDone r -> y_status r = 202 /\ y_body r = [] \/ y_status r = 400 /\ y_puts r = [].
Proof.
  assert (Ha : forall a, y_status (t_answer a) = 202 /\ y_body (t_answer a) = [] \/ y_status (t_answer a) = 400 /\ y_puts (t_answer a) = []).
  { intros [?|?]; cbn; auto. }
  assert (Hs : forall body, t_handle_spans lib env q body = XDone r -> y_status r = 202 /\ y_body r = [] \/ y_status r = 400 /\ y_puts r = []).
  { intros body. unfold t_handle_spans. assert (Hx : forall ep, xmap t_answer (t_parser lib env ep body) = XDone r -> y_status r = 202 /\ y_body r = [] \/ y_status r = 400 /\ y_puts r = []).
    { intros ep. destruct (t_parser lib env ep body); cbn [xmap]; try done. intros [= <-]. apply Ha. }
    destruct (q_endpoint q); try apply Hx. destruct (contains _ _); [apply Hx|]. intros [= <-]. by right. }
  unfold t_handle. destruct (decide _); [|apply Hs]. destruct (n_gunzip env (q_body q)); [apply Hs|]. intros [= <-]. by right.
Qed.

Lemma other_texts lib env q r : t_handle lib env q = XDone r ->
  (q_encoding q = str "gzip" -> n_gunzip env (q_body q) = None -> r = Reply [] 400 (x_gunzip lib (q_body q) ++ [10])) /\
  (forall b, reads env q b -> q_endpoint q = EV1 -> ~ declared_json (q_type q) -> r = Reply [] 400 (str "only json spans are supported" ++ [10])) /\
  (forall b, reads env q b -> q_endpoint q = EJaeger -> y_status r = 400 -> r = Reply [] 400 (heading EJaeger ++ x_jaeger lib b ++ [10])).
Proof.
  intros Hh. assert (Hb : forall b, reads env q b -> t_handle_spans lib env q b = XDone r).
  { intros b Hr. unfold t_handle in Hh. destruct Hr as [[E Hg]|[E Hg]]; [rewrite decide_True, Hg in Hh by done; done|]. rewrite decide_False in Hh by done. by rewrite Hg. }
  split; [|split].
  - intros E Hg. unfold t_handle in Hh. rewrite decide_True, Hg in Hh by done. by injection Hh as <-.
  - intros b Hr E Hj. specialize (Hb b Hr). unfold t_handle_spans in Hb. rewrite E in Hb. destruct (contains _ _) eqn:Ec; [|by injection Hb as <-].
    exfalso. apply Hj. by apply contains_spec.
  - intros b Hr E Hs. specialize (Hb b Hr). unfold t_handle_spans in Hb. rewrite E in Hb. cbn [t_parser xmap] in Hb. injection Hb as <-.
    destruct (ParseJaeger _); [done|]. cbn [t_answer http_error]. unfold with_message, heading. by rewrite <- ?app_assoc.
Qed.
