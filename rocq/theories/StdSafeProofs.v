(** What all values decoded by [jaeger_body] have in common. *)
From Verif Require Import Base IdModel IdSpec IdProofs SpanModel JsonModel CodecModel JsonSpec DocSpec JaegerModel StdJsonModel StdJsonSpec StdJsonProofs StdTextProofs StdDocProofs.

(** [Q] holds of the text of every string and name in a tree. *)
Inductive raws (Q : bytes -> Prop) : tree -> Prop :=
  | rw_str raw : Q raw -> raws Q (TStr raw)
  | rw_arr l : Forall (raws Q) l -> raws Q (TArr l)
  | rw_obj l : Forall (fun m => Q m.1 /\ raws Q m.2) l -> raws Q (TObj l)
  | rw_other t : match t with TStr _ | TArr _ | TObj _ => False | _ => True end -> raws Q t.

Lemma raws_mono (Q R : bytes -> Prop) : (forall raw, Q raw -> R raw) -> forall t, raws Q t -> raws R t.
Proof.
  intros HQ. fix IH 2. intros t [raw H|l H|l H|t' H].
  - apply rw_str. by apply HQ.
  - apply rw_arr. revert l H. fix IHl 2. intros l [|x l' H H']; constructor; [by apply IH|by apply IHl].
  - apply rw_obj. revert l H. fix IHl 2. intros l [|x l' H H']; constructor; [|by apply IHl]. destruct H as [H1 H2]. split; [by apply HQ|by apply IH].
  - by apply rw_other.
Qed.

Definition short (l raw : bytes) : Prop := string_text raw /\ (length raw <= length l)%nat.
Lemma short_mono l l' t : (length l <= length l')%nat -> raws (short l) t -> raws (short l') t.
Proof. intros H. apply raws_mono. intros raw [? ?]. split; [done|lia]. Qed.
Lemma gram_raws :
  (forall t l, gram t l -> raws (short l) t) /\
  (forall ts l, gram_elements ts l -> Forall (raws (short l)) ts) /\
  (forall ms l, gram_members ms l -> Forall (fun m => short l m.1 /\ raws (short l) m.2) ms).
Proof.
  apply gram_mutind; intros; try (by apply rw_other).
  - apply rw_str. split; [done|]. cbn [length]. rewrite app_length. lia.
  - apply rw_arr. constructor.
  - apply rw_arr. eapply Forall_impl; [exact H|]. intros t. apply short_mono. cbn [length]. rewrite app_length. lia.
  - apply rw_obj. constructor.
  - apply rw_obj. eapply Forall_impl; [exact H|]. intros m [[? ?] ?]. split; [split; [done|]|eapply short_mono; [|done]]; cbn [length]; rewrite app_length; lia.
  - constructor; [|constructor]. eapply short_mono; [|done]. rewrite !app_length. lia.
  - constructor.
    + eapply short_mono; [|done]. rewrite !app_length. lia.
    + eapply Forall_impl; [exact H0|]. intros t. apply short_mono. rewrite !app_length. cbn [length]. lia.
  - constructor; [|constructor]. split; [split; [done|]|eapply short_mono; [|done]]; cbn [fst]; repeat (rewrite ?app_length; cbn [length]); lia.
  - constructor.
    + split; [split; [done|]|eapply short_mono; [|done]]; cbn [fst]; repeat (rewrite ?app_length; cbn [length]); lia.
    + eapply Forall_impl; [exact H0|]. intros m [[? ?] ?]. split; [split; [done|]|eapply short_mono; [|done]]; repeat (rewrite ?app_length; cbn [length]); lia.
Qed.

Section keeps.
Context (S : gostring -> Prop) (Hnil : S []).
Definition R : tree -> Prop := raws (fun raw => S (unquote 0 raw)).
Definition keeps {T} (I : T -> Prop) (store : tree -> T -> option T) : Prop := forall t old x, R t -> I old -> store t old = Some x -> I x.

Lemma keeps_string : keeps S store_string.
Proof. intros t old x Ht Ho E. destruct t; try done; injection E as <-; [done|]. by inversion_clear Ht. Qed.
Lemma keeps_uint : keeps (fun z => 0 <= z < 2^64) store_uint.
Proof.
  intros t old x _ Ho E. destruct t; try done; [injection E as <-; done|]. cbn [store_uint] in E.
  rewrite parse_uint_value in E by (split; [done|by vm_compute]). destruct (forallb _ _) eqn:F; [|done]. destruct (Z.ltb_spec (dec_value 0 text) (2^64)); [|done]. injection E as <-.
  split; [|done]. by apply dec_value_grows.
Qed.
Lemma parse_id_int64 l v : parse_id l = Some v -> int64_ok v.
Proof. intros (_ & n & _ & Hn)%parse_id_spec. apply signed64_wrap in Hn. unfold int64_ok. zlia. Qed.
Lemma keeps_id : keeps int64_ok store_id.
Proof.
  assert (H : forall l v, id_unmarshal_json l = Some v -> int64_ok v).
  { intros l v. unfold id_unmarshal_json. repeat case_match; try done; intros E; by eapply parse_id_int64. }
  intros t old x _ Ho E. destruct t; try done; by eapply H.
Qed.
Lemma keeps_interface : keeps (fun v => match v with JVString s => S s | JVOther => True end) store_interface.
Proof. intros t old x Ht Ho. unfold store_interface. destruct (interface_ok t); [|done]. intros [= <-]. destruct t; try done. by inversion_clear Ht. Qed.

Definition slice_all {T} (I : T -> Prop) (s : slice T) : Prop := Forall I (sl_mem s).
Lemma keeps_elements {T} (I : T -> Prop) zero store : I zero -> keeps I store -> forall l i s x, Forall R l -> slice_all I s ->
  store_elements zero store i l s = Some x -> slice_all I x.
Proof.
  intros Hz Hk. induction l as [|t l IH]; intros i s x Hl Hs E; cbn [store_elements] in E.
  - injection E as <-. destruct i; [constructor|]. by destruct (_ <? _)%nat.
  - inversion_clear Hl. assert (Hg : slice_all I (grow_for zero s i)).
    { unfold grow_for. unfold slice_all in *.
      assert (A : Forall I (take (sl_len s) (sl_mem s) ++ replicate (Nat.max (length (sl_mem s) + length (sl_mem s) / 2) 4 - sl_len s) zero))
        by (apply Forall_app; split; [by apply Forall_take|by apply Forall_replicate]).
      by destruct (length (sl_mem s) <=? i)%nat; cbn [sl_mem sl_len]; destruct (_ <=? i)%nat. }
    set (g := grow_for zero s i) in *. clearbody g.
    assert (Hn : I (nth i (sl_mem g) zero)).
    { unfold slice_all in Hg. rewrite Forall_forall in Hg. destruct (nth_in_or_default i (sl_mem g) zero) as [Hi|Hi]; [|by rewrite Hi]. apply Hg. by apply elem_of_list_In. }
    destruct (store t (nth i (sl_mem g) zero)) as [el|] eqn:Es; [|done]. apply (IH _ _ _ ltac:(done)) in E; [done|].
    unfold slice_all. cbn [sl_mem]. apply Forall_insert; [done|]. by eapply (Hk _ _ _ H Hn).
Qed.
Lemma keeps_slice {T} (I : T -> Prop) zero store : I zero -> keeps I store -> keeps (slice_all I) (store_slice zero store).
Proof.
  intros Hz Hk t old x Ht Ho E. destruct t; try done; cbn [store_slice] in E; [injection E as <-; constructor|]. eapply (keeps_elements I); [exact Hz|exact Hk| |exact Ho|exact E]. by inversion_clear Ht.
Qed.
Lemma keeps_members {T} (I : T -> Prop) fields : Forall (fun f => keeps I f.2) fields -> forall ms t x, Forall (fun m => S (unquote 0 m.1) /\ R m.2) ms -> I t ->
  store_members fields ms t = Some x -> I x.
Proof.
  intros Hf. assert (Hd : forall name d, find_field fields name = Some d -> keeps I d).
  { intros name d. induction Hf as [|[n f] fields Hk _ IH]; cbn [find_field]; [done|]. destruct (equal_fold _ _); [by intros [= <-]|done]. }
  induction ms as [|[k v] ms IH]; intros t x Hm Ht E; cbn [store_members] in E; [by injection E as <-|]. inversion_clear Hm as [|? ? [_ Hv] Hr].
  destruct (find_field fields (unquote 0 k)) as [d|] eqn:Ed; [|by eapply IH]. destruct (d v t) as [t'|] eqn:Et; [|done]. eapply IH; [done| |done]. by eapply Hd.
Qed.
Lemma keeps_struct {T} (I : T -> Prop) fields : Forall (fun f => keeps I f.2) fields -> keeps I (store_struct fields).
Proof. intros Hf t old x Ht Ho E. destruct t; try done; cbn [store_struct] in E; [by injection E as <-|]. eapply keeps_members; [exact Hf| |exact Ho|exact E]. by inversion_clear Ht. Qed.
Lemma keeps_within {T F} (I : T -> Prop) (J : F -> Prop) get set store : keeps J store -> (forall t, I t -> J (get t)) -> (forall f t, I t -> J f -> I (set f t)) ->
  keeps I (within get set store).
Proof. intros Hk Hg Hs t old x Ht Ho. unfold within. destruct (store t (get old)) as [f|] eqn:E; [|done]. intros [= <-]. apply Hs; [done|]. by eapply Hk; [..|exact E]; [|apply Hg]. Qed.

Lemma keeps_tag : keeps (jtag_all S) (store_struct tag_fields).
Proof.
  apply keeps_struct. (repeat apply Forall_cons_2); try apply Forall_nil_2; cbn [snd].
  - eapply keeps_within; [apply keeps_string|by intros t []|by intros f t [] ?].
  - eapply keeps_within; [apply keeps_interface|by intros t []|by intros f t [] ?].
Qed.
Lemma keeps_ref : keeps (jref_all S) (store_struct ref_fields).
Proof.
  apply keeps_struct. (repeat apply Forall_cons_2); try apply Forall_nil_2; cbn [snd].
  - eapply keeps_within; [apply keeps_string|by intros t []|by intros f t [] ?].
  - eapply keeps_within; [apply keeps_id|by intros t []|by intros f t [] ?].
Qed.
Definition mspan_all (s : mspan) : Prop :=
  int64_ok (ms_trace s) /\ int64_ok (ms_id s) /\ S (ms_operation s) /\ slice_all (jref_all S) (ms_refs s) /\
  0 <= ms_ts s < 2^64 /\ 0 <= ms_dur s < 2^64 /\ S (ms_process s) /\ slice_all (jtag_all S) (ms_tags s).
Lemma int64_zero : int64_ok 0.
Proof. by split. Qed.
Lemma keeps_mspan : keeps mspan_all (store_struct span_fields).
Proof.
  apply keeps_struct. (repeat apply Forall_cons_2); try apply Forall_nil_2; cbn [snd];
    (eapply keeps_within; [first [apply keeps_string|apply keeps_id|apply keeps_uint|apply keeps_slice; [|first [apply keeps_ref|apply keeps_tag]]]|intros t Ht; apply Ht|]);
    try (intros f t (H1 & H2 & H3 & H4 & H5 & H6 & H7 & H8) Hf; unfold mspan_all; cbn [ms_trace ms_id ms_operation ms_refs ms_ts ms_dur ms_process ms_tags]; tauto).
  all: by (split; [exact Hnil|first [exact I|exact int64_zero]]).
Qed.
Definition mdata_all (d : mdata) : Prop := slice_all mspan_all (md_spans d) /\ forall k v, md_procs d !! k = Some v -> S k /\ S v.
Lemma zero_mspan_all : mspan_all zero_mspan.
Proof. repeat split; try done; constructor. Qed.
Lemma keeps_procs : keeps (fun m : gmap gostring gostring => forall k v, m !! k = Some v -> S k /\ S v) (store_map [] (store_struct process_fields)).
Proof.
  assert (K : keeps S (store_struct process_fields)) by (apply keeps_struct; constructor; [apply keeps_string|constructor]).
  intros t old x Ht Ho E. destruct t as [| | | | |ms]; try done; cbn [store_map] in E; [injection E as <-; intros k v; by rewrite lookup_empty|].
  assert (Hm : Forall (fun m => S (unquote 0 m.1) /\ R m.2) ms) by by inversion_clear Ht. clear Ht. revert old Ho E.
  induction ms as [|[k v] ms IH]; intros old Ho E; cbn [store_entries] in E; [by injection E as <-|]. inversion_clear Hm as [|? ? [Hk Hv] Hr].
  destruct (store_struct process_fields v []) as [el|] eqn:Ee; [|done]. refine (IH Hr _ _ E). intros k' v' [[<- <-]|[_ H]]%lookup_insert_Some; [|by apply Ho].
  split; [done|]. by eapply (K _ _ _ Hv Hnil).
Qed.
Lemma keeps_mdata : keeps mdata_all (store_struct data_fields).
Proof.
  apply keeps_struct. (repeat apply Forall_cons_2); try apply Forall_nil_2; cbn [snd].
  - eapply keeps_within; [apply keeps_slice; [apply zero_mspan_all|apply keeps_mspan]|by intros t []|by intros f t [] ?].
  - eapply keeps_within; [apply keeps_procs|by intros t []|by intros f t [] ?].
Qed.
Lemma sl_list_all {T} (I : T -> Prop) s : slice_all I s -> Forall I (sl_list s).
Proof. intros H. by apply Forall_take. Qed.
Lemma decode_tree_all t data : R t -> decode_tree t = Some data -> Forall (jdata_all S) data.
Proof.
  intros Ht. unfold decode_tree. destruct (store_struct object_fields t (Slice [] 0)) as [s|] eqn:E; [|done]. intros [= <-].
  assert (Hs : slice_all mdata_all s).
  { assert (K : keeps (slice_all mdata_all) (store_struct object_fields)).
    { apply keeps_struct. constructor; [|constructor]. apply keeps_slice; [|apply keeps_mdata]. split; [constructor|]. intros k v. cbn [md_procs zero_mdata]. by rewrite lookup_empty. }
    eapply K; [done| |done]. constructor. }
  apply Forall_map. eapply Forall_impl; [by apply sl_list_all|]. intros d [Hd Hp]. split; [|done]. cbn [view_data jd_spans]. apply Forall_map.
  eapply Forall_impl; [by apply sl_list_all|]. intros m (? & ? & ? & Hr & ? & ? & ? & Htg). apply sl_list_all in Hr, Htg. unfold jspan_all. cbn [view_span js_trace js_id js_operation js_refs js_ts js_dur js_process js_tags]. tauto.
Qed.
End keeps.

Lemma put_rune_length4 r : (length (put_rune r) <= 4)%nat.
Proof. unfold put_rune, encode_rune. repeat case_match; cbn [length]; lia. Qed.
Lemma unquote_length n : forall keep raw, (length raw <= n)%nat -> (length (unquote keep raw) <= 3 * length raw)%nat.
Proof.
  induction n as [|n IH]; intros keep raw Hn; [destruct raw; [cbn; lia|cbn in Hn; lia]|]. destruct raw as [|x r]; [cbn; lia|]. cbn [length] in Hn.
  assert (IH' : forall keep r', (length r' <= length r)%nat -> (length (unquote keep r') <= 3 * length r')%nat) by (intros; apply IH; lia). clear IH.
  destruct keep as [|keep]; [|cbn [unquote length]; specialize (IH' keep r); lia].
  cbn [unquote]. destruct (x =? 92).
  - destruct r as [|y r1]; [cbn; lia|]. destruct (y =? 117); [|cbn [length] in *; specialize (IH' 0%nat r1); lia].
    destruct r1 as [|a [|b [|c [|d r2]]]]; try (cbn; lia). cbn [length] in *.
    pose proof (put_rune_length4 (hex4 a b c d)) as H4. pose proof (IH' 0%nat r2) as H2.
    destruct (between 55296 57343 (hex4 a b c d)); [|rewrite app_length; lia].
    assert (Hr : (length (replacement ++ unquote 0 r2) <= 3 * S (S (S (S (S (S (length r2)))))))%nat) by (rewrite app_length; unfold replacement; cbn [length]; lia).
    destruct r2 as [|x' [|y' [|a' [|b' [|c' [|d' r3]]]]]]; try exact Hr. destruct (_ && _ && _ && _); [|exact Hr]. clear Hr H4.
    rewrite app_length. pose proof (put_rune_length4 (Z.lor (Z.shiftl (hex4 a b c d - 55296) 10) (hex4 a' b' c' d' - 56320) + 65536)). pose proof (IH' 0%nat r3) as H3. cbn [length] in *. lia.
  - destruct (x <? 128); [cbn [length]; specialize (IH' 0%nat r); lia|]. destruct (rune_tail x r) as [m|]; [cbn [length]; specialize (IH' m r); lia|].
    rewrite app_length. unfold replacement. cbn [length]. specialize (IH' 0%nat r). lia.
Qed.

Lemma jaeger_body_all (S : gostring -> Prop) input data : S [] ->
  (forall raw, string_text raw -> (length raw <= length (concat (r_chunks input)))%nat -> S (unquote 0 raw)) ->
  jaeger_body input = Some data -> Forall (jdata_all S) data.
Proof.
  intros Hn HS. unfold jaeger_body. destruct (json_decode input) as [r rest| |] eqn:E; [|done..]. intros ->.
  apply json_decode_sound in E as (w & t & l & Hw & Hg & _ & El & Er). apply gram_raws in Hg. destruct (complete _ _ _); [|done].
  eapply decode_tree_all; [done| |done]. eapply raws_mono; [|exact Hg]. intros raw [? ?]. apply HS; [done|]. rewrite El, !app_length. lia.
Qed.
Lemma jaeger_body_utf8 input data : jaeger_body input = Some data -> Forall (jdata_all utf8_text) data.
Proof. apply jaeger_body_all; [constructor|]. intros raw H _. by eapply unquote_utf8. Qed.
Lemma jaeger_body_short input data : jaeger_body input = Some data -> Forall (jdata_all (fun s => (length s <= 3 * length (concat (r_chunks input)))%nat)) data.
Proof. apply jaeger_body_all; [cbn; lia|]. intros raw _ H. etrans; [by eapply unquote_length|]. lia. Qed.
