(** Proofs for C100: whole requests. *)
From Verif Require Import Base SpanModel JsonModel CodecModel JsonSpec DocSpec JaegerModel JaegerSpec ParseSpec HandlerModel HandlerSpec HandlerProofs StdJsonModel StdJsonSpec StdHttpProofs
  TreeModel TreeSpec FinishModel FinishSpec FinishWitness MaskSpec MaskProofs MaskWitness FormatSpec FormatProofs.

Lemma traverse_forall2 {A B C} (R : A -> B -> Prop) (f : B -> option C) (g : A -> C) l l' :
  Forall2 R l l' -> (forall a b, a ∈ l -> R a b -> f b = Some (g a)) -> traverse f l' = Some (map g l).
Proof.
  induction 1 as [|a b l l' H _ IH]; intros Hf; [done|]. cbn [traverse map]. rewrite (Hf a b) by (done || left). rewrite IH; [done|]. intros x y Hx. apply Hf. by right.
Qed.

Lemma v2_all rs v : v2_reports rs v -> Forall reasonable rs -> v2_spans v = Some (map (span_of 0 (str "json v2")) rs).
Proof.
  intros (vs & -> & H) Hr. unfold v2_spans. cbn [as_arr mbind option_bind]. apply (traverse_forall2 _ _ _ _ _ H). intros a b Ha Hab.
  apply v2_one; [done|]. rewrite Forall_forall in Hr. by apply Hr.
Qed.
Lemma v1_all rs v : v1_reports rs v -> Forall reasonable rs -> Forall v1_can_tell rs -> v1_spans v = Some (map (span_of 0 (str "json v1")) rs).
Proof.
  intros (vs & -> & H) Hr Ht. unfold v1_spans. cbn [as_arr mbind option_bind]. apply (traverse_forall2 _ _ _ _ _ H). intros a b Ha Hab.
  rewrite Forall_forall in Hr, Ht. apply v1_one; [done| |]; [by apply Hr|by apply Ht].
Qed.

Lemma format_v2 env q rs m v l w rest chunks e : q_endpoint q = EV2 -> reads env q (Src chunks e) ->
  v2_reports rs v -> Forall reasonable rs -> text m v l -> ws w -> concat chunks = w ++ l ++ rest ->
  (m <= length (n_buf env))%nat -> (5 <= length (n_buf env))%nat -> no_eager_error e ->
  (length chunks + length (concat chunks) < n_fuel env)%nat -> (2 * length l + 2 < n_fuel env)%nat ->
  exists acts, handle env q = XDone acts /\ accepts (map (span_of 0 (str "json v2")) rs) acts.
Proof.
  intros Hq Hrd Hv Hr Hl Hw Hc Hm H5 He Hf1 Hf2. destruct (handle_v2 env q m v l w rest chunks e Hq Hrd Hl Hw) as (acts & E & A); [by destruct Hv as (vs & -> & _)|done..|].
  exists acts. split; [done|]. by rewrite (v2_all rs v Hv Hr) in A.
Qed.
Lemma format_v1 env q rs m v l w rest chunks e : q_endpoint q = EV1 -> declared_json (q_type q) -> reads env q (Src chunks e) ->
  v1_reports rs v -> Forall reasonable rs -> Forall v1_can_tell rs -> text m v l -> ws w -> concat chunks = w ++ l ++ rest ->
  (m <= length (n_buf env))%nat -> (5 <= length (n_buf env))%nat -> no_eager_error e ->
  (length chunks + length (concat chunks) < n_fuel env)%nat -> (2 * length l + 2 < n_fuel env)%nat -> pooled_once (n_pool env) ->
  exists acts, handle env q = XDone acts /\ accepts (map (span_of 0 (str "json v1")) rs) acts.
Proof.
  intros Hq Hj Hrd Hv Hr Ht Hl Hw Hc Hm H5 He Hf1 Hf2 Hp. destruct (handle_v1 env q m v l w rest chunks e Hq Hj Hrd Hl Hw) as (acts & E & A); try done.
  - by destruct Hv as (vs & -> & _).
  - intros vs ->. destruct Hv as (vs' & [= <-] & Hv). clear -Hv. induction Hv as [|r v rs vs H _ IH]; constructor; [by apply (v1_once r)|done].
  - exists acts. split; [done|]. by rewrite (v1_all rs v Hv Hr Ht) in A.
Qed.

(* ---------- Jaeger ---------- *)

Lemma jaeger_processes_all procs names : Forall2 jaeger_process procs names ->
  traverse (fun kv : bytes * json => option_map (pair kv.1) (jaeger_process_of kv.2)) procs = Some names.
Proof.
  induction 1 as [|[k v] [k' s] procs names [Hk Hv] _ IH]; [done|]. cbn [fst snd] in *. subst k'. destruct Hv as (ms & extra & -> & Hp & He). cbn [traverse fst snd].
  assert (E : jaeger_process_of (JObj ms) = Some s).
  { unfold jaeger_process_of. cbn [as_members mbind option_bind]. assert (E1 : present (str "servicename") ms = [JStr s]) by (pone Hp He). by rewrite E1, (last_one as_str [] _ s). }
  by rewrite E, IH.
Qed.

Lemma jaeger_spans_all procs rs vs : Forall2 (jaeger_report procs) rs vs -> Forall reasonable rs ->
  exists js, traverse jaeger_span_of vs = Some js /\ Forall2 (fun r j => exists p, procs !! p = Some (r_service r) /\ j = jspan_for r p) rs js.
Proof.
  induction 1 as [|r v rs vs H _ IH]; intros Hr; [by exists []|]. apply Forall_cons in Hr as [Hr Hrs]. destruct (IH Hrs) as (js & E & F). destruct (jaeger_one procs r v H Hr) as (p & Hp & Ej).
  exists (jspan_for r p :: js). cbn [traverse]. rewrite Ej, E. split; [done|]. constructor; [by exists p|done].
Qed.

Lemma jaeger_doc_all rs v : jaeger_reports rs v -> Forall reasonable rs ->
  exists procs js, jaeger_document v = Some [JData js procs] /\ Forall2 (fun r j => exists p, procs !! p = Some (r_service r) /\ j = jspan_for r p) rs js.
Proof.
  intros (data & spans & procs & names & Hprocs & Hspans & (ms & extra & -> & Hp & He) & (ms' & extra' & -> & Hp' & He')) Hr.
  destruct (jaeger_spans_all _ _ _ Hspans Hr) as (js & Ej & F). exists (tag_map names), js. split; [|done].
  unfold jaeger_document. cbn [as_members mbind option_bind]. unfold items.
  assert (E0 : present (str "data") ms' = [JArr [JObj ms]]) by (pone Hp' He'). rewrite E0, (last_one as_arr [] _ [JObj ms]) by done. cbn [mbind option_bind traverse].
  assert (E : jaeger_data_of (JObj ms) = Some (JData js (tag_map names))); [|by rewrite E].
  unfold jaeger_data_of. cbn [as_members mbind option_bind]. unfold items.
  assert (E1 : present (str "spans") ms = [JArr spans]) by (pone Hp He). assert (E2 : present (str "processes") ms = [JObj procs]) by (pone Hp He).
  rewrite E1, (last_one as_arr [] _ spans) by done. cbn [mbind option_bind]. rewrite Ej. cbn [mbind option_bind]. unfold jaeger_processes_of.
  rewrite E2, (last_one as_obj [] _ procs) by done. cbn [mbind option_bind]. by rewrite (jaeger_processes_all _ _ Hprocs).
Qed.

Lemma format_jaeger env q rs v t rest chunks e : n_jaeger env = jaeger_body -> q_endpoint q = EJaeger -> reads env q (Src chunks e) ->
  jaeger_reports rs v -> Forall reasonable rs -> Forall jaeger_can_tell rs ->
  begins_with (concat chunks) t rest -> ended t rest -> end_visible t rest e -> means plain_ids t v -> given_once v -> doubles v ->
  exists acts, handle env q = XDone acts /\ accepts (map (fun r => span_of (r_id r) (str "jaeger") r) rs) acts.
Proof.
  intros Hj Hq Hrd Hv Hr Ht Hb He Hvis Hm Hg Hd. destruct (http_document env q chunks e t rest v Hj Hq Hrd Hb He Hvis Hm Hg Hd) as (acts & E & A).
  destruct (jaeger_doc_all rs v Hv Hr) as (procs & js & Ed & F). rewrite Ed in A. destruct A as (groups & A & G). exists acts. split; [done|].
  inversion G as [|d g ds gs G1 G2]; subst. inversion G2; subst. cbn [concat jd_procs jd_spans] in *. rewrite app_nil_r in A.
  assert (X : g = map (fun r => span_of (r_id r) (str "jaeger") r) rs); [|by rewrite <- X].
  clear -F G1 Hr Ht. revert g G1. induction F as [|r j rs js (p & Hp & ->) _ IH]; intros g G1; inversion G1; subst; [done|]. cbn [map].
  apply Forall_cons in Hr as [Hr Hrs]. apply Forall_cons in Ht as [Ht Hts]. f_equal; [by eapply jaeger_is|by apply IH].
Qed.

(* ---------- afterwards ---------- *)

Lemma one_tag root f f' r : masked (without version_key) (span_of root f r) = masked (without version_key) (span_of root f' r).
Proof.
  unfold masked, span_of. cbn [s_id s_parent s_trace s_name s_service s_ts s_dur s_tags s_timings]. f_equal. unfold without. cbn [m_tags].
  apply map_eq. intros k. apply option_eq. intros v. rewrite !map_filter_lookup_Some. cbn [fst]. unfold version_key.
  destruct (decide (k = str "protocolVersion")) as [->|Hk]; [rewrite bool_decide_true by done; naive_solver|]. by rewrite !lookup_insert_ne.
Qed.

Lemma format_run evs evs' : Forall2 same_report evs evs' -> map (masked_entry (without version_key)) (run evs).2 = map (masked_entry (without version_key)) (run evs').2.
Proof.
  intros H. apply tags_run. eapply Forall2_impl; [exact H|]. intros [ord n0 n1 s|k|] [ord' n0' n1' s'|k'|]; cbn; try done.
  intros (A & B & C & D & root & f & f' & r & -> & ->). split; [done|]. split; [done|]. split; [done|]. split; [done|]. apply one_tag.
Qed.
