(** Proofs for C100. *)
From Verif Require Import Base SpanModel JsonModel CodecModel JsonSpec DocSpec JaegerModel JaegerSpec HandlerModel HandlerSpec StdJsonModel StdJsonSpec FormatSpec.

(* ---------- members in any order ---------- *)

Definition pick (fold : gostring -> gostring) (k : gostring) (ms : list (bytes * json)) : list json :=
  map snd (List.filter (fun m => bool_decide (fold m.1 = k)) ms).
Lemma pick_app fold k a b : pick fold k (a ++ b) = pick fold k a ++ pick fold k b.
Proof. unfold pick. by rewrite List.filter_app, map_app. Qed.
Lemma pick_extra fold k (known : list gostring) extra : k ∈ known -> Forall (fun m : bytes * json => fold m.1 ∉ known) extra -> pick fold k extra = [].
Proof.
  intros Hk. induction 1 as [|m extra Hm _ IH]; [done|]. unfold pick in *. cbn [List.filter]. rewrite bool_decide_false; [exact IH|]. by intros <-.
Qed.
Lemma pick_perm fold k a b : a ≡ₚ b -> pick fold k a ≡ₚ pick fold k b.
Proof.
  intros H. unfold pick. apply fmap_Permutation. induction H as [|x a b _ IH|x y a|a b c _ IH1 _ IH2]; cbn [List.filter]; [done| | |by etransitivity].
  - destruct (bool_decide _); [by constructor|exact IH].
  - destruct (bool_decide (fold x.1 = k)), (bool_decide (fold y.1 = k)); try done. constructor.
Qed.
Lemma pick_one fold k (known : list gostring) listed extra ms x : k ∈ known -> ms ≡ₚ listed ++ extra -> Forall (fun m : bytes * json => fold m.1 ∉ known) extra ->
  pick fold k listed = [x] -> pick fold k ms = [x].
Proof.
  intros Hk Hp He Hx. apply Permutation_singleton_r. rewrite (pick_perm fold k _ _ Hp), pick_app, Hx. by rewrite (pick_extra fold k known extra Hk He).
Qed.
Lemma pick_none fold k (known : list gostring) listed extra ms : k ∈ known -> ms ≡ₚ listed ++ extra -> Forall (fun m : bytes * json => fold m.1 ∉ known) extra ->
  pick fold k listed = [] -> pick fold k ms = [].
Proof.
  intros Hk Hp He Hx. apply Permutation_nil_r. rewrite (pick_perm fold k _ _ Hp), pick_app, Hx. by rewrite (pick_extra fold k known extra Hk He).
Qed.

Lemma all_pick k ms : all_values k ms = pick exactly k ms.
Proof. reflexivity. Qed.
Lemma named_pick k ms : named k ms = pick fold_case k ms.
Proof. reflexivity. Qed.

Lemma field_one {A} (f : json -> option A) d k ms x a : all_values k ms = [x] -> f x = Some a -> field f d k ms = Some a.
Proof. intros E F. unfold field. rewrite E. cbn [traverse]. by rewrite F. Qed.
Lemma field_none {A} (f : json -> option A) d k ms : all_values k ms = [] -> field f d k ms = Some d.
Proof. intros E. unfold field. by rewrite E. Qed.

(* ---------- numbers ---------- *)

Lemma digits_dec l acc : Forall (fun c => 48 <= c <= 57) l -> 0 <= acc -> 0 <= dec_value acc l.
Proof. intros H. revert acc. induction H as [|c l Hc _ IH]; intros acc Ha; [done|]. cbn [dec_value]. apply IH. lia. Qed.
Lemma writes_uint n v : writes n v -> n < 2^64 -> as_uint v = Some n /\ as_u64 v = Some n.
Proof.
  intros (l & -> & [Hd Hn] & <-) Hlt. pose proof (digits_dec l 0 Hd (Z.le_refl 0)) as Hp. unfold as_uint, as_u64.
  assert (E : forallb (fun c => (48 <=? c) && (c <=? 57)) l = true).
  { apply forallb_forall. intros c Hc. rewrite <- elem_of_list_In in Hc. rewrite Forall_forall in Hd. specialize (Hd c Hc). apply andb_true_intro. split; apply Z.leb_le; lia. }
  rewrite E, Z.mod_small by lia. split; [done|]. by rewrite (proj2 (Z.ltb_lt _ _) Hlt).
Qed.
Lemma writes_id_as n v : writes_id n v -> as_id v = Some n /\ as_ident v = Some n.
Proof. intros (s & -> & E). done. Qed.

Lemma nanos_small t : 0 <= t -> t * 1000 < 2^63 -> nanos t = t * 1000.
Proof. intros. unfold nanos. apply wrap64_id. unfold int64_ok. p2. lia. Qed.

Lemma endpoint_service k ms x s : all_values k ms = [x] -> endpoint_of s x -> service_of k ms = Some s.
Proof.
  intros E (es & extra & -> & Hp & He). unfold service_of. rewrite E. cbn [traverse as_obj concat]. rewrite app_nil_r.
  apply (field_one _ _ _ _ (JStr s)); [|done]. rewrite all_pick. by apply (pick_one exactly _ _ _ _ _ _ (elem_of_list_here _ _) Hp He).
Qed.

Lemma strings_map l : traverse (fun kv : bytes * json => option_map (pair kv.1) (as_str kv.2)) (map (fun kv => (kv.1, JStr kv.2)) l) = Some l.
Proof. induction l as [|[k v] l IH]; [done|]. cbn [map traverse]. by rewrite IH. Qed.

Ltac known := repeat first [apply elem_of_list_here | apply elem_of_list_further].
Ltac one Hp He := rewrite all_pick; eapply (pick_one exactly); [|exact Hp|exact He|reflexivity]; known.

(* ---------- version 2 ---------- *)

Ltac none Hp He := rewrite all_pick; eapply (pick_none exactly); [|exact Hp|exact He|reflexivity]; known.

Lemma v2_one r v : v2_report r v -> reasonable r -> v2_span v = Some (span_of 0 (str "json v2") r).
Proof.
  intros (id & trace & parent & start & dur & endpoint & Hid & Htrace & Hparent & Hstart & Hdur & Hend & ms & extra & -> & Hp & He) (Ht & Hd & Hb).
  apply writes_id_as in Hid as [Hid _]. apply writes_id_as in Htrace as [Htrace _]. apply writes_uint in Hstart as [Hstart _]; [|p2; lia]. apply writes_uint in Hdur as [Hdur _]; [|p2; lia].
  assert (Ei : field as_id 0 (str "parentId") ms = Some (default 0 (r_parent r))).
  { unfold parent_member in Hparent. destruct (r_parent r) as [p|].
    - destruct Hparent as (pv & Hpv & ->). apply (field_one _ _ _ _ pv); [|by apply writes_id_as]. destruct (r_side r); one Hp He.
    - subst parent. apply field_none. destruct (r_side r); none Hp He. }
  assert (Ek : field as_str [] (str "kind") ms = Some (match r_side r with Client => str "CLIENT" | Server => str "SERVER" | Local => [] end)).
  { unfold parent_member in Hparent. destruct (r_parent r) as [p|]; [destruct Hparent as (pv & Hpv & ->)|subst parent]; destruct (r_side r);
      first [apply field_none; none Hp He | eapply field_one; [one Hp He|done]]. }
  assert (G : forall k x, pick exactly k parent = [] -> k <> str "kind" -> k ∈ v2_known ->
    pick exactly k [(str "id", id); (str "traceId", trace); (str "name", JStr (r_name r)); (str "timestamp", start); (str "duration", dur);
        (str "localEndpoint", endpoint); (str "tags", JObj (map (fun kv => (kv.1, JStr kv.2)) (r_tags r)))] = [x] -> all_values k ms = [x]).
  { intros k x H1 H2 H3 H4. rewrite all_pick. eapply pick_one; [exact H3|exact Hp|exact He|]. rewrite !pick_app, H1, H4.
    assert (E : pick exactly k (match r_side r with Client => [(str "kind", JStr (str "CLIENT"))] | Server => [(str "kind", JStr (str "SERVER"))] | Local => [] end) = []).
    { destruct (r_side r); unfold pick; cbn [List.filter fst]; rewrite ?bool_decide_false by (intros X; by apply H2); done. }
    by rewrite E. }
  assert (P : forall k, str "parentId" <> k -> pick exactly k parent = []).
  { intros k Hk. unfold parent_member in Hparent. destruct (r_parent r) as [p|]; [destruct Hparent as (pv & _ & ->)|by subst parent]. unfold pick. cbn [List.filter fst]. by rewrite bool_decide_false. }
  unfold v2_span. cbn [as_obj mbind option_bind].
  rewrite (field_one as_id 0 (str "id") ms id (r_id r)); [|apply G; [by apply P|done|known|reflexivity]|done]. cbn [mbind option_bind].
  rewrite (field_one as_id 0 (str "traceId") ms trace (r_trace r)); [|apply G; [by apply P|done|known|reflexivity]|done]. cbn [mbind option_bind].
  rewrite Ei. cbn [mbind option_bind].
  rewrite (field_one as_uint 0 (str "timestamp") ms start (r_start r)); [|apply G; [by apply P|done|known|reflexivity]|done]. cbn [mbind option_bind].
  rewrite (field_one as_uint 0 (str "duration") ms dur (r_dur r)); [|apply G; [by apply P|done|known|reflexivity]|done]. cbn [mbind option_bind].
  rewrite (field_one as_str [] (str "name") ms (JStr (r_name r)) (r_name r)); [|apply G; [by apply P|done|known|reflexivity]|done]. cbn [mbind option_bind].
  rewrite Ek. cbn [mbind option_bind].
  rewrite (field_one as_map ∅ (str "tags") ms (JObj (map (fun kv => (kv.1, JStr kv.2)) (r_tags r))) (tag_map (r_tags r)));
    [|apply G; [by apply P|done|known|reflexivity]|cbn [as_map]; by rewrite strings_map]. cbn [mbind option_bind].
  rewrite (endpoint_service (str "localEndpoint") ms endpoint (r_service r)); [|apply G; [by apply P|done|known|reflexivity]|done]. cbn [mbind option_bind].
  rewrite !nanos_small by lia. rewrite (proj2 (Z.eqb_neq (r_dur r * 1000) 0)) by lia. rewrite wrap64_id by (unfold int64_ok; p2; lia).
  unfold span_of. f_equal. f_equal. replace (r_start r * 1000 + r_dur r * 1000) with ((r_start r + r_dur r) * 1000) by lia.
  by destruct (r_side r).
Qed.

(* ---------- version 1 ---------- *)

Lemma v1_ann r t what a : v1_annotation r t what a -> t < 2^64 -> annotation a = Some (t, what, r_service r).
Proof.
  intros (time & endpoint & Ht & Hend & ms & extra & -> & Hp & He) Hlt. apply writes_uint in Ht as [Ht _]; [|done]. unfold annotation. cbn [as_obj mbind option_bind].
  rewrite (field_one as_uint 0 (str "timestamp") ms time t); [|one Hp He|done]. cbn [mbind option_bind].
  rewrite (field_one as_str [] (str "value") ms (JStr what) what); [|one Hp He|done]. cbn [mbind option_bind].
  rewrite (endpoint_service (str "endpoint") ms endpoint (r_service r)); [done|one Hp He|done].
Qed.
Lemma v1_bin r kv a : v1_binary r kv a -> binary_annotation a = Some (kv.1, kv.2, r_service r).
Proof.
  intros (endpoint & Hend & ms & extra & -> & Hp & He). unfold binary_annotation. cbn [as_obj mbind option_bind].
  rewrite (field_one as_str [] (str "key") ms (JStr kv.1) kv.1); [|one Hp He|done]. cbn [mbind option_bind].
  rewrite (field_one as_text [] (str "value") ms (JStr kv.2) kv.2); [|one Hp He|done]. cbn [mbind option_bind].
  rewrite (endpoint_service (str "endpoint") ms endpoint (r_service r)); [done|one Hp He|done].
Qed.
Lemma v1_bins r l bas : Forall2 (v1_binary r) l bas -> traverse binary_annotation bas = Some (map (fun kv => (kv.1, kv.2, r_service r)) l).
Proof. induction 1 as [|kv a l bas H _ IH]; [done|]. cbn [traverse map]. by rewrite (v1_bin r kv a H), IH. Qed.

Lemma first_same s l : Forall (fun x => x = s) l -> (l = [] -> s = []) -> first_name l = s.
Proof.
  intros H Hn. unfold first_name. destruct (decide (s = [])) as [->|Hs].
  - clear Hn. induction H as [|x l -> _ IH]; [done|]. cbn [List.filter]. rewrite bool_decide_false by tauto. exact IH.
  - destruct H as [|x l -> _]; [by specialize (Hn eq_refl)|]. cbn [List.filter]. by rewrite bool_decide_true.
Qed.

Lemma tag_fold (s : gostring) (l : list (gostring * gostring)) (m : gmap gostring gostring) :
  foldl (fun m (b : gostring * gostring * gostring) => <[b.1.1 := b.1.2]> m) m (map (fun kv : gostring * gostring => (kv.1, kv.2, s)) l) =
  foldl (fun m (kv : gostring * gostring) => <[kv.1 := kv.2]> m) m l.
Proof. revert m. induction l as [|kv l IH]; intros m; [done|]. cbn [map foldl fst snd]. apply IH. Qed.

Lemma timing_two k a b s t1 t2 : 0 < t1 -> 0 < t2 -> a <> b ->
  timing k [(t1, a, s); (t2, b, s)] = if decide (k = a) then nanos t1 else if decide (k = b) then nanos t2 else 0.
Proof.
  intros H1 H2 Hab. unfold timing. cbn [List.filter fst snd].
  destruct (decide (k = a)) as [->|Ha].
  - rewrite bool_decide_true by (split; [lia|done]). rewrite bool_decide_false by (intros [_ E]; by apply Hab). done.
  - rewrite bool_decide_false by (intros [_ E]; by apply Ha). destruct (decide (k = b)) as [->|Hb].
    + rewrite bool_decide_true by (split; [lia|done]). done.
    + rewrite bool_decide_false by (intros [_ E]; by apply Hb). done.
Qed.
Lemma timing_is k a b s t1 t2 v : 0 < t1 -> 0 < t2 -> a <> b -> (if decide (k = a) then nanos t1 else if decide (k = b) then nanos t2 else 0) = v ->
  timing k [(t1, a, s); (t2, b, s)] = v.
Proof. intros. by rewrite timing_two. Qed.

Lemma v1_once r v : v1_report r v -> at_most_once (str "annotations") v /\ at_most_once (str "binaryAnnotations") v.
Proof.
  intros (id & trace & parent & start & dur & anns & bas & _ & _ & Hparent & _ & _ & _ & _ & ms & extra & -> & Hp & He).
  assert (P : forall k, str "parentId" <> k -> pick exactly k parent = []).
  { intros k Hk. unfold parent_member in Hparent. destruct (r_parent r) as [p|]; [destruct Hparent as (pv & _ & ->)|by subst parent]. unfold pick. cbn [List.filter fst]. by rewrite bool_decide_false. }
  cbn [at_most_once]. split.
  - assert (E : all_values (str "annotations") ms = [JArr anns]); [|by rewrite E; cbn; lia].
    rewrite all_pick. eapply pick_one; [|exact Hp|exact He|rewrite pick_app, P; done]. known.
  - assert (E : all_values (str "binaryAnnotations") ms = [JArr bas]); [|by rewrite E; cbn; lia].
    rewrite all_pick. eapply pick_one; [|exact Hp|exact He|rewrite pick_app, P; done]. known.
Qed.

Lemma v1_one r v : v1_report r v -> reasonable r -> v1_can_tell r -> v1_span v = Some (span_of 0 (str "json v1") r).
Proof.
  intros (id & trace & parent & start & dur & anns & bas & Hid & Htrace & Hparent & Hstart & Hdur & Hanns & Hbas & ms & extra & -> & Hp & He) (Ht & Hd & Hb) Htell.
  apply writes_id_as in Hid as [Hid _]. apply writes_id_as in Htrace as [Htrace _]. apply writes_uint in Hstart as [Hstart _]; [|p2; lia]. apply writes_uint in Hdur as [Hdur _]; [|p2; lia].
  assert (Ei : field as_id 0 (str "parentId") ms = Some (default 0 (r_parent r))).
  { unfold parent_member in Hparent. destruct (r_parent r) as [p|].
    - destruct Hparent as (pv & Hpv & ->). apply (field_one _ _ _ _ pv); [|by apply writes_id_as]. one Hp He.
    - subst parent. apply field_none. none Hp He. }
  assert (P : forall k, str "parentId" <> k -> pick exactly k parent = []).
  { intros k Hk. unfold parent_member in Hparent. destruct (r_parent r) as [p|]; [destruct Hparent as (pv & _ & ->)|by subst parent]. unfold pick. cbn [List.filter fst]. by rewrite bool_decide_false. }
  assert (G : forall k x, str "parentId" <> k -> k ∈ v1_known ->
    pick exactly k [(str "id", id); (str "traceId", trace); (str "name", JStr (r_name r)); (str "timestamp", start); (str "duration", dur);
        (str "annotations", JArr anns); (str "binaryAnnotations", JArr bas)] = [x] -> all_values k ms = [x]).
  { intros k x H1 H3 H4. rewrite all_pick. eapply pick_one; [exact H3|exact Hp|exact He|]. by rewrite pick_app, P, H4. }
  unfold v1_span. cbn [as_obj mbind option_bind].
  rewrite (field_one as_id 0 (str "id") ms id (r_id r)); [|apply G; [done|known|reflexivity]|done]. cbn [mbind option_bind].
  rewrite (field_one as_id 0 (str "traceId") ms trace (r_trace r)); [|apply G; [done|known|reflexivity]|done]. cbn [mbind option_bind].
  rewrite Ei. cbn [mbind option_bind].
  rewrite (field_one as_uint 0 (str "timestamp") ms start (r_start r)); [|apply G; [done|known|reflexivity]|done]. cbn [mbind option_bind].
  rewrite (field_one as_uint 0 (str "duration") ms dur (r_dur r)); [|apply G; [done|known|reflexivity]|done]. cbn [mbind option_bind].
  rewrite (field_one as_str [] (str "name") ms (JStr (r_name r)) (r_name r)); [|apply G; [done|known|reflexivity]|done]. cbn [mbind option_bind].
  assert (Ea : elements_of (str "annotations") ms = Some anns).
  { unfold elements_of. rewrite (G (str "annotations") (JArr anns)); [|done|known|reflexivity]. cbn [traverse as_arr option_map concat]. by rewrite app_nil_r. }
  assert (Eb : elements_of (str "binaryAnnotations") ms = Some bas).
  { unfold elements_of. rewrite (G (str "binaryAnnotations") (JArr bas)); [|done|known|reflexivity]. cbn [traverse as_arr option_map concat]. by rewrite app_nil_r. }
  rewrite Ea. cbn [mbind option_bind].
  assert (Hs : forall l : list (Z * gostring * gostring), Forall (fun a => a.2 = r_service r /\ a.1.1 <> 0) l -> (l = [] -> r_side r = Local) ->
    first_name (map snd (List.filter (fun a => bool_decide (a.1.1 <> 0)) l) ++ map snd (map (fun kv : gostring * gostring => (kv.1, kv.2, r_service r)) (r_tags r))) = r_service r).
  { intros l Hl Hl0. apply first_same.
    - apply Forall_app. split; apply Forall_forall; intros x [y [-> Hy]]%elem_of_list_fmap.
      + apply elem_of_list_In, List.filter_In in Hy as [Hy _]. rewrite Forall_forall in Hl. apply (Hl y). by apply elem_of_list_In.
      + apply elem_of_list_fmap in Hy as [kv [-> _]]. done.
    - intros E. apply app_eq_nil in E as [E1 E2]. apply Htell.
      + apply Hl0. destruct l as [|a l]; [done|]. apply Forall_cons in Hl as [[_ Ha] _]. cbn [List.filter map] in E1. by rewrite bool_decide_true in E1.
      + destruct (r_tags r); done. }
  destruct (r_side r) eqn:Eside.
  - destruct Hanns as (a & b & -> & Ha & Hb'). apply v1_ann in Ha; [|p2; lia]. apply v1_ann in Hb'; [|p2; lia]. cbn [take traverse]. rewrite Ha, Hb'. cbn [mbind option_bind].
    rewrite Eb. cbn [mbind option_bind]. rewrite (v1_bins r _ _ Hbas). cbn [mbind option_bind].
    rewrite Hs; [|repeat (apply Forall_cons_2; [cbn; split; [done|lia]|]); apply Forall_nil_2|done].
    rewrite (timing_is (str "cs") (str "cs") (str "cr") (r_service r) (r_start r) (r_start r + r_dur r) (nanos (r_start r)) ltac:(lia) ltac:(lia) ltac:(done) eq_refl), (timing_is (str "cr") (str "cs") (str "cr") (r_service r) (r_start r) (r_start r + r_dur r) (nanos (r_start r + r_dur r)) ltac:(lia) ltac:(lia) ltac:(done) eq_refl), (timing_is (str "ss") (str "cs") (str "cr") (r_service r) (r_start r) (r_start r + r_dur r) (0) ltac:(lia) ltac:(lia) ltac:(done) eq_refl), (timing_is (str "sr") (str "cs") (str "cr") (r_service r) (r_start r) (r_start r + r_dur r) (0) ltac:(lia) ltac:(lia) ltac:(done) eq_refl). rewrite !nanos_small by lia.
    rewrite decide_True by lia. rewrite wrap64_id by (unfold int64_ok; p2; lia).
    unfold span_of. rewrite Eside, tag_fold. replace ((r_start r + r_dur r) * 1000 - r_start r * 1000) with (r_dur r * 1000) by lia. rewrite (proj2 (Z.eqb_neq (r_dur r * 1000) 0)) by lia. done.
  - destruct Hanns as (a & b & -> & Ha & Hb'). apply v1_ann in Ha; [|p2; lia]. apply v1_ann in Hb'; [|p2; lia]. cbn [take traverse]. rewrite Ha, Hb'. cbn [mbind option_bind].
    rewrite Eb. cbn [mbind option_bind]. rewrite (v1_bins r _ _ Hbas). cbn [mbind option_bind].
    rewrite Hs; [|repeat (apply Forall_cons_2; [cbn; split; [done|lia]|]); apply Forall_nil_2|done].
    rewrite (timing_is (str "cs") (str "sr") (str "ss") (r_service r) (r_start r) (r_start r + r_dur r) (0) ltac:(lia) ltac:(lia) ltac:(done) eq_refl), (timing_is (str "cr") (str "sr") (str "ss") (r_service r) (r_start r) (r_start r + r_dur r) (0) ltac:(lia) ltac:(lia) ltac:(done) eq_refl), (timing_is (str "ss") (str "sr") (str "ss") (r_service r) (r_start r) (r_start r + r_dur r) (nanos (r_start r + r_dur r)) ltac:(lia) ltac:(lia) ltac:(done) eq_refl), (timing_is (str "sr") (str "sr") (str "ss") (r_service r) (r_start r) (r_start r + r_dur r) (nanos (r_start r)) ltac:(lia) ltac:(lia) ltac:(done) eq_refl). rewrite !nanos_small by lia.
    rewrite decide_False by lia. rewrite decide_True by lia. rewrite wrap64_id by (unfold int64_ok; p2; lia).
    unfold span_of. rewrite Eside, tag_fold. replace ((r_start r + r_dur r) * 1000 - r_start r * 1000) with (r_dur r * 1000) by lia. rewrite (proj2 (Z.eqb_neq (r_dur r * 1000) 0)) by lia. done.
  - subst anns. cbn [take traverse mbind option_bind]. rewrite Eb. cbn [mbind option_bind]. rewrite (v1_bins r _ _ Hbas). cbn [mbind option_bind].
    rewrite Hs; [|apply Forall_nil_2|done]. change (timing _ []) with 0. rewrite !nanos_small by lia.
    rewrite !decide_False by lia. unfold span_of. rewrite Eside, tag_fold. rewrite (proj2 (Z.eqb_neq (r_dur r * 1000) 0)) by lia. done.
Qed.

(* ---------- Jaeger ---------- *)

Lemma last_one {A} (f : json -> option A) d x a : f x = Some a -> last_of f d [x] = Some a.
Proof. intros E. unfold last_of. cbn [traverse]. by rewrite E. Qed.
Definition not_null (v : json) : Prop := match v with JNull => False | _ => True end.
Lemma present_one k ms x : named k ms = [x] -> not_null x -> present k ms = [x].
Proof. intros E H. unfold present. rewrite E. cbn [List.filter]. by destruct x. Qed.
Ltac jone Hp He := rewrite named_pick; eapply (pick_one fold_case); [|exact Hp|exact He|reflexivity]; known.
Ltac pone Hp He := apply present_one; [jone Hp He|done].

Lemma jaeger_tag_one kv v : jaeger_tag kv v -> jaeger_tag_of v = Some (JTag kv.1 (JVString kv.2)).
Proof.
  intros (ms & extra & -> & Hp & He). unfold jaeger_tag_of. cbn [as_members mbind option_bind].
  assert (E1 : present (str "key") ms = [JStr kv.1]) by (pone Hp He). assert (E2 : named (str "value") ms = [JStr kv.2]) by (jone Hp He).
  by rewrite E1, E2.
Qed.
Lemma jaeger_tags_all l vs : Forall2 jaeger_tag l vs -> traverse jaeger_tag_of vs = Some (map (fun kv => JTag kv.1 (JVString kv.2)) l).
Proof. induction 1 as [|kv v l vs H _ IH]; [done|]. cbn [traverse map]. by rewrite (jaeger_tag_one kv v H), IH. Qed.
Lemma jaeger_ref_one p v : jaeger_ref p v -> jaeger_ref_of v = Some (JRef (str "CHILD_OF") p).
Proof.
  intros (id & Hid & ms & extra & -> & Hp & He). apply writes_id_as in Hid as [_ Hid]. unfold jaeger_ref_of. cbn [as_members mbind option_bind].
  assert (E1 : present (str "reftype") ms = [JStr (str "CHILD_OF")]) by (pone Hp He). assert (E2 : named (str "spanid") ms = [id]) by (jone Hp He).
  rewrite E1, E2, (last_one as_str [] _ (str "CHILD_OF")) by done. cbn [mbind option_bind]. by rewrite (last_one as_ident 0 _ p).
Qed.

Definition kind_tag (s : side) : list (gostring * gostring) :=
  match s with Client => [(str "span.kind", str "client")] | Server => [(str "span.kind", str "server")] | Local => [] end.
Definition jspan_for (r : report) (p : gostring) : jspan :=
  JSpan (r_trace r) (r_id r) (r_name r) (match r_parent r with None => [] | Some p => [JRef (str "CHILD_OF") p] end) (r_start r) (r_dur r) p
    (map (fun kv => JTag kv.1 (JVString kv.2)) (kind_tag (r_side r) ++ r_tags r)).

Lemma jaeger_one procs r v : jaeger_report procs r v -> reasonable r -> exists p, procs !! p = Some (r_service r) /\ jaeger_span_of v = Some (jspan_for r p).
Proof.
  intros (id & trace & refs & start & dur & p & tags & Hid & Htrace & Hstart & Hdur & Hproc & Hrefs & Htags & ms & extra & -> & Hp & He) (Ht & Hd & Hb). exists p. split; [done|].
  assert (Ns : not_null start) by (by destruct Hstart as (? & -> & _)). assert (Nd : not_null dur) by (by destruct Hdur as (? & -> & _)).
  apply writes_id_as in Hid as [_ Hid]. apply writes_id_as in Htrace as [_ Htrace]. apply writes_uint in Hstart as [_ Hstart]; [|p2; lia]. apply writes_uint in Hdur as [_ Hdur]; [|p2; lia].
  unfold jaeger_span_of. cbn [as_members mbind option_bind].
  assert (E1 : named (str "traceid") ms = [trace]) by (jone Hp He). assert (E2 : named (str "spanid") ms = [id]) by (jone Hp He).
  assert (E3 : present (str "operationname") ms = [JStr (r_name r)]) by (pone Hp He). assert (E4 : present (str "references") ms = [JArr refs]) by (pone Hp He).
  assert (E5 : present (str "starttime") ms = [start]) by (apply present_one; [jone Hp He|exact Ns]). assert (E6 : present (str "duration") ms = [dur]) by (apply present_one; [jone Hp He|exact Nd]).
  assert (E7 : present (str "processid") ms = [JStr p]) by (pone Hp He). assert (E8 : present (str "tags") ms = [JArr tags]) by (pone Hp He).
  rewrite E1, (last_one as_ident 0 _ (r_trace r)) by done. cbn [mbind option_bind]. rewrite E2, (last_one as_ident 0 _ (r_id r)) by done. cbn [mbind option_bind].
  rewrite E3, (last_one as_str [] _ (r_name r)) by done. cbn [mbind option_bind]. unfold items. rewrite E4, (last_one as_arr [] _ refs) by done. cbn [mbind option_bind].
  assert (Er : traverse jaeger_ref_of refs = Some (match r_parent r with None => [] | Some p => [JRef (str "CHILD_OF") p] end)).
  { destruct (r_parent r) as [q|]; [|by subst refs]. destruct Hrefs as (x & -> & Hx). cbn [traverse]. by rewrite (jaeger_ref_one q x Hx). }
  rewrite Er. cbn [mbind option_bind]. rewrite E5, (last_one as_u64 0 _ (r_start r)) by done. cbn [mbind option_bind]. rewrite E6, (last_one as_u64 0 _ (r_dur r)) by done. cbn [mbind option_bind].
  rewrite E7, (last_one as_str [] _ p) by done. cbn [mbind option_bind]. rewrite E8, (last_one as_arr [] _ tags) by done. cbn [mbind option_bind].
  rewrite (jaeger_tags_all _ _ Htags). done.
Qed.

(** The last tag with a key. *)
Lemma tag_map_snoc l k v : tag_map (l ++ [(k, v)]) = <[k := v]> (tag_map l).
Proof. unfold tag_map. by rewrite foldl_app. Qed.
Lemma tag_map_last l k v : k <> str "component" -> Forall (fun kv => kv.1 <> str "component") l ->
  (tag_map l !! k = Some v <-> exists t, last_with (carries k) (map (fun kv => JTag kv.1 (JVString kv.2)) l) t /\ jt_value t = JVString v).
Proof.
  intros Hk. induction l as [|[k' v'] l IH] using rev_ind; intros Hl.
  - split; [done|]. intros (t & (l1 & l2 & E & _) & _). by destruct l1.
  - apply Forall_app in Hl as [Hl Hk']. rewrite Forall_singleton in Hk'. cbn [fst] in Hk'. rewrite tag_map_snoc, map_app. cbn [map fst snd].
    destruct (decide (k' = k)) as [->|Hne].
    + rewrite lookup_insert. split.
      * intros [= ->]. exists (JTag k (JVString v)). split; [|done]. exists (map (fun kv => JTag kv.1 (JVString kv.2)) l), []. split; [done|]. split; [|by apply Forall_nil_2]. split; [by left|by exists v].
      * intros (t & (l1 & l2 & E & _ & Hl2) & Ev). destruct l2 as [|t2 l2] using rev_ind.
        -- apply app_inj_tail in E as [_ <-]. cbn in Ev. by injection Ev as ->.
        -- clear IHl2. rewrite app_comm_cons, app_assoc in E. apply app_inj_tail in E as [_ <-]. apply Forall_app in Hl2 as [_ Hc]. rewrite Forall_singleton in Hc. destruct Hc. split; [by left|by eexists].
    + rewrite lookup_insert_ne by done. rewrite IH by done. split.
      * intros (t & (l1 & l2 & E & Hc & Hl2) & Ev). exists t. split; [|done]. exists l1, (l2 ++ [JTag k' (JVString v')]). split; [by rewrite E, <- app_assoc|]. split; [done|].
        apply Forall_app. split; [done|]. apply Forall_singleton. intros [[H|[H1 H2]] _]; cbn in *; congruence.
      * intros (t & (l1 & l2 & E & Hc & Hl2) & Ev). exists t. split; [|done]. destruct l2 as [|t2 l2] using rev_ind.
        -- apply app_inj_tail in E as [_ <-]. destruct Hc as [[H|[H1 H2]] _]; cbn in *; congruence.
        -- clear IHl2. rewrite app_comm_cons, app_assoc in E. apply app_inj_tail in E as [E _]. exists l1, l2. split; [done|]. split; [done|]. by apply Forall_app in Hl2 as [? _].
Qed.

Lemma tag_map_absent l k : Forall (fun kv => kv.1 <> k) l -> tag_map l !! k = None.
Proof.
  induction l as [|[k' v'] l IH] using rev_ind; intros H; [done|]. apply Forall_app in H as [H1 H2]. rewrite Forall_singleton in H2. cbn in H2. rewrite tag_map_snoc, lookup_insert_ne by done. by apply IH.
Qed.

Lemma tag_values_kind l : Forall (fun kv : gostring * gostring => kv.1 <> str "span.kind") l -> tag_values (str "span.kind") (map (fun kv => JTag kv.1 (JVString kv.2)) l) = [].
Proof.
  intros H. unfold tag_values. induction H as [|kv l Hk _ IH]; [done|]. cbn [map omap list_omap jt_key]. rewrite decide_False by done. exact IH.
Qed.

Lemma jaeger_is procs r p s : jaeger_describes procs (jspan_for r p) s -> procs !! p = Some (r_service r) -> reasonable r -> jaeger_can_tell r ->
  s = span_of (r_id r) (str "jaeger") r.
Proof.
  intros (E1 & E2 & E3 & E4 & E5 & E6 & E7 & E8 & E9) Hproc (Ht & Hd & Hb) Htell. destruct s as [id par tr name svc ts dur tags tm]. cbn [s_id s_trace s_parent s_name s_service s_ts s_dur s_tags s_timings] in *.
  cbn [jspan_for js_id js_trace js_operation js_ts js_process] in *. subst id tr name. rewrite Hproc in E5. cbn in E5. subst svc.
  assert (Ed : jaeger_duration (jspan_for r p) = r_dur r * 1000).
  { unfold jaeger_duration. cbn [jspan_for js_dur]. rewrite nanos_small by lia. by rewrite (proj2 (Z.eqb_neq (r_dur r * 1000) 0)) by lia. }
  assert (Ek : jaeger_kind (jspan_for r p) = match r_side r with Client => str "client" | Server => str "server" | Local => [] end).
  { unfold jaeger_kind. cbn [jspan_for js_tags]. rewrite map_app. unfold tag_values. rewrite omap_app. fold (tag_values (str "span.kind") (map (fun kv => JTag kv.1 (JVString kv.2)) (r_tags r))).
    rewrite tag_values_kind; [by destruct (r_side r)|]. eapply Forall_impl; [exact Htell|]. by intros kv (_ & _ & ?). }
  assert (Et : tm = match r_side r with Client => Timings (r_start r * 1000) ((r_start r + r_dur r) * 1000) 0 0 | Server => Timings 0 0 ((r_start r + r_dur r) * 1000) (r_start r * 1000) | Local => Timings 0 0 0 0 end).
  { rewrite E9. unfold jaeger_timings. rewrite Ek, Ed. cbn [jspan_for js_ts]. rewrite nanos_small by lia. rewrite wrap64_id by (unfold int64_ok; p2; lia).
    replace (r_start r * 1000 + r_dur r * 1000) with ((r_start r + r_dur r) * 1000) by lia. by destruct (r_side r). }
  assert (Ep : par = default (r_id r) (r_parent r)).
  { destruct E3 as [(x & (l1 & l2 & E & _ & _) & ->)|[H ->]]; cbn [jspan_for js_refs js_id] in *.
    - destruct (r_parent r) as [q|]; [|by destruct l1]. destruct l1 as [|? [|]]; try done. by injection E as <- <-.
    - destruct (r_parent r) as [q|]; [|done]. apply Forall_cons in H as [H _]. by destruct H. }
  assert (Em : tags = <[str "protocolVersion" := str "jaeger"]> (tag_map (r_tags r))).
  { destruct E8 as (M1 & M2 & M3). cbn [jspan_for js_tags] in M3. apply map_eq. intros k. destruct (decide (k = str "protocolVersion")) as [->|Hk]; [by rewrite lookup_insert|].
    rewrite lookup_insert_ne by done. destruct (decide (internal_key k)) as [Hi|Hi].
    - rewrite (M2 k Hi). symmetry. apply tag_map_absent. eapply Forall_impl; [exact Htell|]. intros kv (A & B & C). cbn in A, B, C. destruct Hi as [-> | [-> | ->]]; done.
    - apply option_eq. intros v. rewrite (M3 k v Hi Hk). rewrite <- tag_map_last.
      + assert (X : tag_map (kind_tag (r_side r) ++ r_tags r) !! k = tag_map (r_tags r) !! k); [|by rewrite X].
        unfold tag_map. rewrite foldl_app. fold (tag_map (kind_tag (r_side r))).
        assert (Y : forall l (m : gmap gostring gostring), m !! k = None -> foldl (fun m kv => <[kv.1 := kv.2]> m) m l !! k = tag_map l !! k).
        { clear. induction l as [|kv l IH] using rev_ind; intros m Hm; [exact Hm|]. unfold tag_map. rewrite !foldl_app. cbn [foldl]. destruct (decide (kv.1 = k)) as [<-|Hn]; [by rewrite !lookup_insert|].
          rewrite !lookup_insert_ne by done. by apply IH. }
        apply Y. apply tag_map_absent. destruct (r_side r); cbn [kind_tag]; try apply Forall_nil_2; apply Forall_singleton; cbn; intros <-; apply Hi; by right; right.
      + intros ->. apply Hi. by left.
      + apply Forall_app. split; [destruct (r_side r); cbn [kind_tag]; try apply Forall_nil_2; by apply Forall_singleton|]. eapply Forall_impl; [exact Htell|]. intros ? (A & _). exact A. }
  unfold span_of. by rewrite Et, Ep, Em, E6, E7, Ed, nanos_small by lia.
Qed.
