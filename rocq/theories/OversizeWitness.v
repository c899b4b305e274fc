(** A version 2 request that is answered 202 and whose span is above the producer's size limit. *)
From Verif Require Import Base SpanModel JsonModel JsonSpec CodecModel DocSpec DocSem HandlerModel BinaryModel BinarySpec AcceptSpec AcceptProofs
  PipelineModel ClusterModel ClusterSpec ClusterBlock.
From Verif Require DocTheorems.

Definition plain_text (s : bytes) : Prop := Forall (fun c => c <> 34 /\ c <> 92) s.
Lemma plain_simple s : plain_text s -> simple_string s s.
Proof. induction 1 as [|c s [? ?] _ IH]; [constructor|by constructor]. Qed.

(** Objects with such members have a text. *)
Lemma members_text m (kvs : list (gostring * gostring)) : kvs <> [] -> Forall (fun kv => plain_text kv.1 /\ plain_text kv.2 /\ (length kv.1 < m)%nat /\ (length kv.2 < m)%nat) kvs ->
  exists l, members m (map (fun kv => (kv.1, JStr kv.2)) kvs) l.
Proof.
  induction kvs as [|[k v] kvs IH]; [done|]. intros _ H. apply Forall_cons in H as [(Hk & Hv & Lk & Lv) H]. cbn [fst snd] in *.
  assert (Ht : text m (JStr v) (34 :: v ++ [34])) by (constructor; [by apply plain_simple|done]).
  destruct kvs as [|kv kvs].
  - eexists. cbn [map fst snd]. apply (m_one m k k [] [] [] (JStr v) (34 :: v ++ [34]) []); try apply Forall_nil_2; try done. by apply plain_simple.
  - destruct IH as [l Hl]; [done|done|]. eexists. cbn [map fst snd]. apply (m_more m k k [] [] [] (JStr v) (34 :: v ++ [34]) [] _ l); try apply Forall_nil_2; try done. by apply plain_simple.
Qed.

Definition big_tags (n len : nat) : list (gostring * gostring) := map (fun j => (replicate j 97, replicate len 97)) (seq 0 n).
Lemma big_tags_keys n len : NoDup (big_tags n len).*1.
Proof.
  unfold big_tags. rewrite <- list_fmap_compose. apply NoDup_fmap_2; [|apply NoDup_seq]. intros i j H. cbn in H. apply (f_equal length) in H. by rewrite !replicate_length in H.
Qed.

Definition big_json (n len : nat) : json :=
  JArr [JObj [(str "id", JStr (str "4")); (str "traceId", JStr (str "7")); (str "tags", JObj (map (fun kv => (kv.1, JStr kv.2)) (big_tags n len)))]].

Lemma traverse_strings kvs : traverse (fun kv : bytes * json => option_map (pair kv.1) (as_str kv.2)) (map (fun kv : gostring * gostring => (kv.1, JStr kv.2)) kvs) = Some kvs.
Proof. induction kvs as [|[k v] kvs IH]; [done|]. cbn. by rewrite IH. Qed.

Lemma insert_all (kvs : list (gostring * gostring)) (m : gmap gostring gostring) : NoDup kvs.*1 -> (forall k, k ∈ kvs.*1 -> m !! k = None) ->
  map_to_list (foldl (fun m kv => <[kv.1 := kv.2]> m) m kvs) ≡ₚ kvs ++ map_to_list m.
Proof.
  revert m. induction kvs as [|[k v] kvs IH]; intros m Hn Hm; [done|]. cbn in Hn. apply NoDup_cons in Hn as [H1 H2]. cbn [foldl fst snd]. rewrite IH; [|done|].
  - rewrite map_to_list_insert by (apply Hm; apply elem_of_list_here). by rewrite <- Permutation_middle.
  - intros k' Hk'. rewrite lookup_insert_ne by (intros ->; done). apply Hm. by apply elem_of_list_further.
Qed.

Lemma big_spans n len : exists s, v2_spans (big_json n len) = Some [s] /\
  map_to_list (s_tags s) ≡ₚ (str "protocolVersion", str "json v2") :: big_tags n len.
Proof.
  assert (Hm : as_map (JObj (map (fun kv => (kv.1, JStr kv.2)) (big_tags n len))) = Some (foldl (fun m kv => <[kv.1 := kv.2]> m) ∅ (big_tags n len))).
  { cbn [as_map]. by rewrite traverse_strings. }
  unfold big_json. generalize dependent (JObj (map (fun kv : gostring * gostring => (kv.1, JStr kv.2)) (big_tags n len))). intros tags Hm.
  assert (Hf : field as_map ∅ (str "tags") [(str "id", JStr (str "4")); (str "traceId", JStr (str "7")); (str "tags", tags)] = Some (foldl (fun m kv => <[kv.1 := kv.2]> m) ∅ (big_tags n len))).
  { transitivity (option_map (fun l => List.last l ∅) (traverse as_map [tags])); [reflexivity|]. cbn [traverse]. by rewrite Hm. }
  pose proof (insert_all (big_tags n len) ∅ (big_tags_keys n len) ltac:(intros; apply lookup_empty)) as Hl. rewrite map_to_list_empty, app_nil_r in Hl.
  assert (Hno : foldl (fun (m : gmap gostring gostring) kv => <[kv.1 := kv.2]> m) ∅ (big_tags n len) !! str "protocolVersion" = None).
  { apply eq_None_not_Some. intros [v Hv]. apply elem_of_map_to_list in Hv. rewrite Hl in Hv. unfold big_tags in Hv. apply elem_of_list_fmap in Hv as (j & [= E _] & _).
    destruct j as [|j]; cbn in E; discriminate. }
  generalize dependent (foldl (fun (m : gmap gostring gostring) kv => <[kv.1 := kv.2]> m) ∅ (big_tags n len)). intros mm _ Hf Hl Hno.
  set (ms := [(str "id", JStr (str "4")); (str "traceId", JStr (str "7")); (str "tags", tags)]) in *.
  exists (Span 4 0 7 [] [] 0 1000000 (<[str "protocolVersion" := str "json v2"]> mm) (Timings 0 0 0 0)). split.
  - unfold v2_spans. cbn [as_arr mbind option_bind traverse]. unfold v2_span. cbn [as_obj mbind option_bind].
    replace (field as_id 0 (str "id") ms) with (Some 4) by reflexivity. replace (field as_id 0 (str "traceId") ms) with (Some 7) by reflexivity.
    replace (field as_id 0 (str "parentId") ms) with (Some 0) by reflexivity. replace (field as_uint 0 (str "timestamp") ms) with (Some 0) by reflexivity.
    replace (field as_uint 0 (str "duration") ms) with (Some 0) by reflexivity. replace (field as_str [] (str "name") ms) with (Some ([] : gostring)) by reflexivity.
    replace (field as_str [] (str "kind") ms) with (Some ([] : gostring)) by reflexivity. replace (service_of (str "localEndpoint") ms) with (Some ([] : gostring)) by reflexivity.
    rewrite Hf. reflexivity.
  - cbn [s_tags]. rewrite map_to_list_insert by done. by rewrite Hl.
Qed.

Ltac pt := unfold plain_text; vm_compute; repeat first [apply Forall_nil_2|apply Forall_cons_2; [split; discriminate|]].

Lemma big_text n len m : (0 < n)%nat -> (n < m)%nat -> (len < m)%nat -> (10 < m)%nat -> exists l, text m (big_json n len) l.
Proof.
  intros H0 H1 H2 H3. assert (Hp : forall k, plain_text (replicate k 97)) by (intros k; apply Forall_replicate; lia).
  destruct (members_text m (big_tags n len)) as [l Hl].
  { destruct n; [lia|done]. }
  { unfold big_tags. apply Forall_fmap, Forall_forall. intros j [_ Hj]%elem_of_seq. cbn. rewrite !replicate_length. split; [done|]. split; [done|]. lia. }
  assert (Hs : forall s, plain_text s -> (length s < m)%nat -> text m (JStr s) (34 :: s ++ [34])) by (intros s ? ?; constructor; [by apply plain_simple|done]).
  assert (Hid : forall s, plain_text s -> simple_string s s) by apply plain_simple.
  eexists. unfold big_json. apply t_arr. eapply (e_one m _ [] _ []); [apply Forall_nil_2| |apply Forall_nil_2]. apply t_obj.
  eapply (m_more m (str "id") (str "id") [] [] [] _ _ []); try apply Forall_nil_2; [apply plain_simple; pt|cbn; lia|apply (Hs (str "4")); [pt|cbn; lia]|].
  eapply (m_more m (str "traceId") (str "traceId") [] [] [] _ _ []); try apply Forall_nil_2; [apply plain_simple; pt|cbn; lia|apply (Hs (str "7")); [pt|cbn; lia]|].
  eapply (m_one m (str "tags") (str "tags") [] [] [] _ _ []); try apply Forall_nil_2; [apply plain_simple; pt|cbn; lia|]. apply t_obj. exact Hl.
Qed.

(** The size of its message. *)
Definition value_bytes (kvs : list (gostring * gostring)) : nat := sum_list (map (fun kv => length kv.2) kvs).
Lemma entries_length kvs : forall bs, write_entries kvs = Some bs -> (value_bytes kvs <= length bs)%nat.
Proof.
  induction kvs as [|[k v] kvs IH]; intros bs; [cbn; lia|]. cbn [write_entries]. intros E. apply oapp_len_r in E as (b1 & E & H1).
  destruct (write_string v) as [x|] eqn:Ex; [|done]. destruct (write_entries kvs) as [y|] eqn:Ey; [|done]. injection E as <-. specialize (IH y eq_refl).
  unfold write_string in Ex. apply oapp_len_r in Ex as (z & [= <-] & Hz). rewrite app_length in H1. unfold value_bytes in *. cbn. lia.
Qed.
Lemma encode_tags_length ord s m : encode_msg ord s = Some m -> (value_bytes ord <= length (km_val m))%nat.
Proof.
  unfold encode_msg. destruct (binary_encode ord s) as [bs|] eqn:E; [|done]. intros [= <-]. cbn [km_val]. unfold binary_encode in E.
  do 11 (apply oapp_len_r in E as (? & E & ?)). unfold write_map_string in E. destruct ord as [|kv ord]; [cbn; lia|].
  apply oapp_len_r in E as (? & E & ?). apply oapp_len_l in E as (? & E & ?). apply entries_length in E. lia.
Qed.
Lemma value_bytes_perm l1 l2 : l1 ≡ₚ l2 -> value_bytes l1 = value_bytes l2.
Proof. intros H. unfold value_bytes. by rewrite H. Qed.
Lemma value_bytes_big n len : value_bytes (big_tags n len) = (n * len)%nat.
Proof.
  unfold value_bytes, big_tags. rewrite map_map. cbn [snd]. generalize 0%nat. induction n as [|n IH]; intros k; [done|]. cbn [seq map].
  change (length (replicate len 97%Z) + sum_list (map (fun _ : nat => length (replicate len 97%Z)) (seq (S k) n)) = S n * len)%nat. rewrite IH, replicate_length. done.
Qed.

Lemma big_request : exists env q s, pooled_memory env /\ jaeger_ok env q /\ q_endpoint q = EV2 /\ handle env q = XDone [Put s; Status 202] /\
  Z.of_nat (size (s_tags s)) < 2^63 /\ forall part ord m, iteration_order ord (s_tags s) -> encode_msg ord s = Some m -> g_limit (main_kconfig part) < msg_size m.
Proof.
  set (len := Z.to_nat 8000). assert (Hlen : Z.of_nat len = 8000) by (unfold len; lia). clearbody len.
  assert (Hbuf : Z.of_nat parse_buffer = 8192) by (unfold parse_buffer; lia).
  destruct (big_spans 100 len) as (s & Hs & Ht). destruct (big_text 100 len parse_buffer) as [l Hl]; [lia..|].
  exists (Env (S (S (length l) + 2 * length l + 2)) (replicate parse_buffer 0) new_pool_entry (fun _ => None) (fun _ => None)), (Request EV2 [] [] (Src [l] (EndEOF false))), s.
  split; [split; [apply replicate_length|constructor]|]. split; [done|]. split; [done|]. split; [|split].
  - unfold handle. cbn [q_encoding q_body]. rewrite decide_False by done. unfold handle_spans. cbn [q_endpoint]. unfold parse_spans, parser. cbn [n_fuel n_buf].
    rewrite (DocTheorems.v2_document parse_buffer (big_json 100 len) l [] [] [l] (EndEOF false)); [by rewrite Hs|done|apply Forall_nil_2|done|cbn; by rewrite !app_nil_r|by rewrite replicate_length|rewrite replicate_length; lia|done| |].
    + cbn [length concat]. rewrite app_nil_r. lia.
    + lia.
  - unfold size, map_size. rewrite Ht. cbn [length]. unfold big_tags. rewrite map_length, seq_length. lia.
  - intros part ord m Ho Hm. apply encode_tags_length in Hm. rewrite (value_bytes_perm ord _ (transitivity Ho Ht)) in Hm.
    change (7 + value_bytes (big_tags 100 len) <= length (km_val m))%nat in Hm. rewrite value_bytes_big in Hm. unfold msg_size, main_kconfig. cbn [g_limit]. lia.
Qed.

Lemma request_blocks part n parts i : (i < n)%nat ->
  exists env q s evs st rec, pooled_memory env /\ q_endpoint q = EV2 /\ handle env q = XDone [Put s; Status 202] /\
    reached (main_kconfig part) n parts evs st rec /\ KCrash i ∉ evs /\ puts rec = replicate 385 s /\
    forall evs' st' rec', KCrash i ∉ evs' -> krun (main_kconfig part) evs' st rec = Next (st', rec') -> forall s', kstep (main_kconfig part) (KPut i s') st' = Blocked.
Proof.
  intros H. destruct big_request as (env & q & s & He & Hj & Hq & Ha & Hs & Hl).
  destruct (blocked_forever (main_kconfig part) n parts i s map_to_list) as (evs & st & rec & H1 & H0 & H2 & H3).
  - done.
  - cbn; lia.
  - cbn; lia.
  - eapply accepted_wire; [exact He|exact Hj|exact Ha|apply elem_of_list_here|done].
  - intros m. unfold iteration_order. reflexivity.
  - intros m. apply Hl. unfold iteration_order. reflexivity.
  - exists env, q, s, evs, st, rec. done.
Qed.

Lemma big_span_ok : exists s, wire_ok s /\ forall part ord m, iteration_order ord (s_tags s) -> encode_msg ord s = Some m -> g_limit (main_kconfig part) < msg_size m.
Proof.
  destruct big_request as (env & q & s & He & Hj & Hq & Ha & Hs & Hl). exists s. split; [|exact Hl].
  eapply accepted_wire; [exact He|exact Hj|exact Ha|apply elem_of_list_here|done].
Qed.
