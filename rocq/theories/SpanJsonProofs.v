(** Proofs about spans as JSON. *)
From Coq Require Import Sorted.
From Verif Require Import Base IdModel IdSpec IdProofs JsonModel JsonSpec JsonProofs CodecModel DocSpec DocSem JaegerModel StdJsonModel StdJsonSpec StdJsonProofs StdTextProofs StdDocProofs SpanModel SpanProofs TimeModel TimeSpec TimeProofs SpanJsonModel SpanJsonSpec SpanTextProofs.

(* ---------- plain texts ---------- *)
Definition simple_char (c : Z) : Prop := 32 <= c < 128 /\ c <> 34 /\ c <> 92 /\ c <> 60 /\ c <> 62 /\ c <> 38.
Lemma simple_text l : Forall simple_char l -> string_text l /\ json_string l l /\ utf8_text l /\ Forall plain_html l /\ unquote 0 l = l.
Proof.
  induction 1 as [|c l Hc H (I1 & I2 & I3 & I4 & I5)]; [repeat split; constructor|]. unfold simple_char in Hc.
  split; [apply st_plain; [lia|lia|lia|done]|]. split; [apply js_plain; [lia|lia|lia|done]|]. split; [apply utf8_text_ascii; [lia|done]|].
  split; [apply Forall_cons_2; [unfold plain_html; lia|done]|]. cbn [unquote]. destruct (Z.eqb_spec c 92); [lia|]. destruct (Z.ltb_spec c 128); [|lia]. by f_equal.
Qed.
Lemma digits_simple l : Forall (fun c => 48 <= c <= 57) l -> Forall simple_char l.
Proof. intros H. eapply Forall_impl; [exact H|]. unfold simple_char. intros c Hc; cbn beta in *; lia. Qed.
Lemma decimals_simple w x l : decimals w x l -> Forall simple_char l.
Proof. intros (_ & H & _). by apply digits_simple. Qed.
Lemma rfc3339_simple l ns : rfc3339 l ns -> Forall simple_char l.
Proof.
  intros (n & y & mo & d & h & mi & s & f & off & ty & tmo & td & th & tmi & ts & tf & tz & -> & H1 & H2 & H3 & H4 & H5 & H6 & _ & _ & _ & _ & Hf & Hz & _).
  apply decimals_simple in H1, H2, H3, H4, H5, H6.
  assert (Forall simple_char tf).
  { destruct Hf as [[-> _]|(ds & -> & [Hd _] & _)]; [apply Forall_nil_2|]. apply Forall_cons_2; [unfold simple_char; lia|by apply digits_simple]. }
  assert (Forall simple_char tz).
  { destruct Hz as [[-> _]|(sg & hh & mm & thh & tmm & -> & Hh & Hm & _ & _ & Hs)]; [apply Forall_cons_2; [unfold simple_char; lia|apply Forall_nil_2]|].
    apply decimals_simple in Hh, Hm. apply Forall_cons_2; [unfold simple_char; lia|]. apply Forall_app_2; [done|]. apply Forall_cons_2; [unfold simple_char; lia|done]. }
  repeat first [assumption | apply Forall_app_2 | apply Forall_cons_2; [unfold simple_char; lia|]].
Qed.

(* ---------- times ---------- *)
Definition time_raw (zone : Z -> Z) (ts : Z) : bytes := let '(sec, nsec) := unix_split ts in format_time zone sec nsec.
Lemma marshal_raw zone ts : ts_marshal_json zone ts = 34 :: time_raw zone ts ++ [34].
Proof. unfold ts_marshal_json, time_raw. by destruct (unix_split ts). Qed.
Lemma time_raw_rfc zone ts : zone_minutes zone -> int64_ok ts -> rfc3339 (time_raw zone ts) ts.
Proof.
  intros Hz Hts. destruct (Hz (ts / 1000000000)) as [Hb Hm]. destruct (marshal_rfc3339 zone ts Hts Hb) as (l & E & H).
  rewrite Hm, Z.mul_0_l, Z.add_0_r in H. rewrite marshal_raw in E. unfold quoted in E. injection E as E. apply app_inj_tail in E as [-> _]. done.
Qed.
Lemma store_time_raw zone ts old : zone_minutes zone -> int64_ok ts -> store_time (TStr (time_raw zone ts)) old = Some ts.
Proof.
  intros Hz Hts. cbn [store_time]. rewrite <- marshal_raw. apply timestamp_roundtrip; [done|apply Hz|apply Hz].
Qed.

(* ---------- ids ---------- *)
Definition id_raw (id : Z) : bytes := hex_encode (id_be_bytes id).
Lemma id_raw_digits id : int64_ok id -> id_digits id (id_raw id).
Proof. intros H. destruct (id_roundtrip_all id H) as (H1 & H2 & H3 & _). split; [done|]. split; [done|]. by rewrite <- parse_id_text. Qed.
Lemma id_raw_simple id : int64_ok id -> Forall simple_char (id_raw id).
Proof. intros H. destruct (id_raw_digits id H) as (_ & Hl & _). eapply Forall_impl; [exact Hl|]. unfold lower_hex, simple_char. intros c Hc; cbn beta in *; lia. Qed.
Lemma store_id_raw id old : int64_ok id -> store_id (TStr (id_raw id)) old = Some id.
Proof. intros H. cbn [store_id]. by apply unmarshal_marshal. Qed.

(* ---------- numbers ---------- *)
Lemma drop_leading_spec l : digits l -> int_text (drop_leading l) /\ dec_value 0 (drop_leading l) = dec_value 0 l /\ digits (drop_leading l).
Proof.
  induction l as [|c l IH]; intros [Hd Hn]; [done|]. destruct l as [|c' l].
  - cbn [drop_leading]. split; [|done]. destruct (decide (c = 48)) as [->|N]; [by left|]. right. split; [done|]. cbn. congruence.
  - cbn [drop_leading]. apply Forall_cons in Hd as [Hc Hd]. destruct (Z.eqb_spec c 48) as [->|N].
    + destruct IH as (I1 & I2 & I3); [done|]. split; [exact I1|]. split; [|exact I3]. etransitivity; [exact I2|]. done.
    + split; [|split; [done|split; [by apply Forall_cons_2|done]]]. right. split; [split; [by apply Forall_cons_2|done]|]. cbn. congruence.
Qed.
Lemma int_text_rfc l : int_text l -> rfc_number l /\ rfc_number (45 :: l).
Proof.
  intros H. split.
  - exists [], l, [], []. rewrite !app_nil_r. split; [done|]. split; [by left|]. split; [done|]. split; by left.
  - exists [45], l, [], []. rewrite !app_nil_r. split; [done|]. split; [by right|]. split; [done|]. split; by left.
Qed.
Lemma digits_parse l : digits l -> dec_value 0 l < 2^64 -> parse_uint 0 l = Some (dec_value 0 l).
Proof.
  intros [H _] Hb. rewrite parse_uint_value by (split; [lia|p2; lia]).
  replace (forallb (fun c => (48 <=? c) && (c <=? 57)) l) with true.
  2: { symmetry. apply List.forallb_forall. rewrite List.Forall_forall in H. intros x Hx. apply H in Hx. lia. }
  destruct (Z.ltb_spec (dec_value 0 l) (2^64)); [done|lia].
Qed.
Lemma write_int_spec x : int64_ok x -> decimal x (write_int x) /\ rfc_number (write_int x) /\ parse_int (write_int x) = Some x /\ Forall plain_html (write_int x).
Proof.
  intros Hx. unfold int64_ok in Hx. assert (E10 : 10 ^ Z.of_nat 19 = 10000000000000000000) by reflexivity.
  assert (Hd : forall y, 0 <= y <= 2^63 -> exists l, drop_leading (pad_int 19 y) = l /\ int_text l /\ dec_value 0 l = y /\ digits l).
  { intros y Hy. destruct (pad_int_decimals 19 y) as (P1 & P2 & P3); [rewrite E10; p2; lia|].
    destruct (drop_leading_spec (pad_int 19 y)) as (D1 & D2 & D3); [split; [done|]; intros E; rewrite E in P1; done|].
    eexists. split; [reflexivity|]. split; [done|]. split; [congruence|done]. }
  unfold write_int. destruct (Z.ltb_spec x 0) as [Hs|Hs].
  - destruct (Hd (- x)) as (l & -> & H1 & H2 & H3); [p2; lia|]. clear Hd E10. split; [right; split; [exact Hs|]; exists l; split; [reflexivity|]; split; [exact H1|exact H2]|]. split; [by apply int_text_rfc|]. split.
    + cbn [parse_int]. rewrite Z.eqb_refl. rewrite digits_parse by (first [done|rewrite H2; p2; lia]). rewrite H2.
      destruct (Z.ltb_spec (2^63) (- x)); [p2; lia|]. f_equal. lia.
    + apply Forall_cons_2; [unfold plain_html; lia|]. eapply simple_text, digits_simple, H3.
  - destruct (Hd x) as (l & -> & H1 & H2 & H3); [p2; lia|]. clear Hd E10. split; [left; split; [exact Hs|]; split; [exact H1|exact H2]|]. split; [by apply int_text_rfc|]. split.
    + pose proof (digits_parse l H3) as Hp. destruct H3 as [H3 Hn]. destruct l as [|c l]; [done|]. cbn [parse_int]. apply Forall_cons in H3 as [Hc _].
      destruct (Z.eqb_spec c 45); [lia|]. rewrite Hp by (rewrite H2; p2; lia). rewrite H2. destruct (Z.leb_spec (2^63) x); [p2; lia|done].
    + eapply simple_text, digits_simple, H3.
Qed.

(* ---------- the order of tags ---------- *)
Lemma precedes_cons x a b : precedes a b -> precedes (x :: a) (x :: b).
Proof.
  intros [(c & r & ->)|(p & y & z & ra & rb & -> & -> & H)]; [left; by exists c, r|right; by exists (x :: p), y, z, ra, rb].
Qed.
Lemma bytes_less_true a : forall b, bytes_less a b = true -> precedes a b.
Proof.
  induction a as [|x a IH]; intros [|y b]; cbn [bytes_less]; try done; intros H; [left; by exists y, b|].
  apply orb_true_iff in H as [H|[H1 H2]%andb_true_iff]; [right; exists [], x, y, a, b; split; [done|]; split; [done|lia]|].
  assert (x = y) as -> by lia. apply precedes_cons. by apply IH.
Qed.
Lemma bytes_less_false a : forall b, bytes_less a b = false -> a = b \/ precedes b a.
Proof.
  induction a as [|x a IH]; intros [|y b]; cbn [bytes_less]; try done; intros H; [by left|right; left; by exists x, a|].
  apply orb_false_iff in H as [H1 H2]. destruct (decide (x = y)) as [->|N].
  - rewrite Z.eqb_refl in H2. cbn in H2. apply IH in H2 as [->|H2]; [by left|right; by apply precedes_cons].
  - right. right. exists [], y, x, b, a. split; [done|]. split; [done|lia].
Qed.
Lemma precedes_less a : forall b, precedes a b -> bytes_less a b = true.
Proof.
  induction a as [|x a IH]; intros b H.
  - destruct H as [(c & r & ->)|(p & y & z & ra & rb & E & _ & _)]; [done|by destruct p].
  - destruct b as [|y b].
    { destruct H as [(c & r & E)|(p & y & z & ra & rb & _ & E & _)]; [done|by destruct p]. }
    cbn [bytes_less]. destruct H as [(c & r & E)|(p & y' & z & ra & rb & E1 & E2 & Hl)].
    + injection E as -> ->. rewrite Z.eqb_refl. rewrite IH by (left; by exists c, r). by rewrite orb_true_r.
    + destruct p as [|q p]; [injection E1 as -> ->; injection E2 as -> ->|injection E1 as -> ->; injection E2 as -> ->].
      * destruct (Z.ltb_spec y' z); [done|lia].
      * rewrite Z.eqb_refl. rewrite IH by (right; by exists p, y', z, ra, rb). by rewrite orb_true_r.
Qed.
Lemma bytes_less_trans a : forall b c, bytes_less a b = true -> bytes_less b c = true -> bytes_less a c = true.
Proof.
  induction a as [|x a IH]; intros [|y b] [|z c]; cbn [bytes_less]; try done. intros H1 H2.
  apply orb_true_iff in H1 as [H1|[H1 H1']%andb_true_iff]; apply orb_true_iff in H2 as [H2|[H2 H2']%andb_true_iff]; apply orb_true_iff.
  - left; lia.
  - left; lia.
  - left; lia.
  - right. apply andb_true_iff. split; [lia|by eapply IH].
Qed.
Lemma precedes_trans a b c : precedes a b -> precedes b c -> precedes a c.
Proof. intros H1 H2. apply bytes_less_true. eapply bytes_less_trans; by apply precedes_less. Qed.

Lemma insert_perm kv l : insert_entry kv l ≡ₚ kv :: l.
Proof.
  induction l as [|kv' l IH]; [done|]. cbn [insert_entry]. destruct (bytes_less kv.1 kv'.1); [done|]. rewrite IH. constructor.
Qed.
Lemma insert_sorted kv l : kv.1 ∉ map fst l -> StronglySorted precedes (map fst l) -> StronglySorted precedes (map fst (insert_entry kv l)).
Proof.
  induction l as [|kv' l IH]; intros Hn Hs; [by repeat constructor|]. cbn [insert_entry]. cbn [map] in Hn, Hs. inversion_clear Hs as [|? ? Hs' Hf].
  destruct (bytes_less kv.1 kv'.1) eqn:E.
  - cbn [map]. apply bytes_less_true in E. constructor; [by constructor|]. apply Forall_cons_2; [done|].
    eapply Forall_impl; [exact Hf|]. intros x Hx. by eapply precedes_trans.
  - cbn [map]. apply not_elem_of_cons in Hn as [Hn1 Hn2]. constructor; [by apply IH|].
    apply bytes_less_false in E as [E|E]; [done|]. rewrite Forall_forall in Hf |- *. intros x Hx.
    rewrite (Permutation_map fst (insert_perm kv l)) in Hx. cbn [map] in Hx. apply elem_of_cons in Hx as [->|Hx]; [done|]. by apply Hf.
Qed.
Lemma sorted_perm m : sorted_entries m ≡ₚ map_to_list m.
Proof. unfold sorted_entries. induction (map_to_list m) as [|kv l IH]; [done|]. cbn [foldr]. by rewrite insert_perm, IH. Qed.
Lemma sorted_sorted m : StronglySorted precedes (map fst (sorted_entries m)).
Proof.
  unfold sorted_entries. pose proof (NoDup_fst_map_to_list m) as Hn. induction (map_to_list m) as [|kv l IH]; [constructor|].
  cbn [foldr]. rewrite fmap_cons in Hn. apply NoDup_cons in Hn as [Hn1 Hn2]. apply insert_sorted; [|by apply IH].
  assert (E : foldr insert_entry [] l ≡ₚ l). { clear. induction l as [|kv l IH]; [done|]. cbn [foldr]. by rewrite insert_perm, IH. }
  rewrite (Permutation_map fst E). exact Hn1.
Qed.
Lemma sorted_elem m k v : m !! k = Some v <-> (k, v) ∈ sorted_entries m.
Proof. by rewrite sorted_perm, elem_of_map_to_list. Qed.

(* ---------- objects and arrays ---------- *)
Definition is_member (m : bytes * bytes) (t : bytes * tree) : Prop := m.1 = 34 :: t.1 ++ [34] /\ string_text t.1 /\ gram t.2 m.2.
Lemma gram_members_list ms tms : Forall2 is_member ms tms -> ms <> [] -> gram_members tms (write_list (map (fun m => m.1 ++ 58 :: m.2) ms)).
Proof.
  induction 1 as [|[k v] [tk tv] ms tms (Hk & Hs & Hg) H IH]; [done|]. intros _. cbn [fst snd] in *. subst k. cbn [map fst snd]. destruct H as [|m t ms tms Hm H].
  - cbn [map write_list]. replace ((34 :: tk ++ [34]) ++ 58 :: v) with ([] ++ 34 :: tk ++ 34 :: [] ++ 58 :: [] ++ v ++ []).
    2: { cbn [app]. rewrite app_nil_r, <- app_assoc. reflexivity. }
    apply gm_one; first [done|constructor].
  - set (rest := map (fun m0 : list Z * list Z => m0.1 ++ 58 :: m0.2) (m :: ms)) in *. assert (Hr : gram_members (t :: tms) (write_list rest)) by by apply IH.
    assert (E : write_list (((34 :: tk ++ [34]) ++ 58 :: v) :: rest) = [] ++ 34 :: tk ++ 34 :: [] ++ 58 :: [] ++ v ++ [] ++ 44 :: write_list rest).
    { subst rest. cbn [map]. cbn [write_list app]. rewrite <- !app_assoc. cbn [app]. reflexivity. }
    rewrite E. apply gm_more; first [done|constructor].
Qed.
Lemma gram_object ms tms : Forall2 is_member ms tms -> gram (TObj tms) (write_object ms).
Proof.
  intros H. unfold write_object. destruct ms as [|m ms]; [inversion H; subst; apply (g_obj_empty []); constructor|]. apply g_obj. by apply gram_members_list.
Qed.
Lemma gram_array l ts : Forall2 (fun v t => gram t v) l ts -> gram (TArr ts) (91 :: write_list l ++ [93]).
Proof.
  intros H. destruct l as [|v l]; [inversion H; subst; apply (g_arr_empty []); constructor|]. apply g_arr.
  revert v ts H. induction l as [|v' l IH]; intros v ts H; inversion H as [|? t ? ts' Hv Hl]; subst.
  - inversion Hl; subst. cbn [write_list]. replace v with ([] ++ v ++ []) by (cbn; by rewrite app_nil_r). apply ge_one; first [done|constructor].
  - apply IH in Hl. assert (E : write_list (v :: v' :: l) = [] ++ v ++ [] ++ 44 :: write_list (v' :: l)) by reflexivity. rewrite E.
    apply ge_more; first [done|constructor].
Qed.
Lemma list_plain l : Forall (Forall plain_html) l -> Forall plain_html (write_list l).
Proof.
  induction 1 as [|v l Hv H IH]; [apply Forall_nil_2|]. destruct l as [|v' l]; [done|]. cbn [write_list]. apply Forall_app_2; [done|].
  apply Forall_cons_2; [unfold plain_html; lia|done].
Qed.
Lemma object_plain ms : Forall (fun m => Forall plain_html m.1 /\ Forall plain_html m.2) ms -> Forall plain_html (write_object ms).
Proof.
  intros H. unfold write_object. apply Forall_cons_2; [unfold plain_html; lia|]. apply Forall_app_2; [|apply Forall_cons_2; [unfold plain_html; lia|apply Forall_nil_2]].
  apply list_plain. apply Forall_map. eapply Forall_impl; [exact H|]. intros [k v] [Hk Hv]. cbn [fst snd] in *. apply Forall_app_2; [done|]. apply Forall_cons_2; [unfold plain_html; lia|done].
Qed.

(* ---------- the tree of a span ---------- *)
Definition omit_tree (name : gostring) (ts : Z) (raw : bytes) : list (bytes * tree) := if ts =? 0 then [] else [(name, TStr raw)].
Definition timings_tree (zone : Z -> Z) (t : timings) : tree :=
  TObj (omit_tree (str "cs") (tCS t) (time_raw zone (tCS t)) ++ omit_tree (str "cr") (tCR t) (time_raw zone (tCR t)) ++
        omit_tree (str "ss") (tSS t) (time_raw zone (tSS t)) ++ omit_tree (str "sr") (tSR t) (time_raw zone (tSR t))).
Definition tags_tree (m : gmap gostring gostring) : tree :=
  TObj (map (fun kv => (escape_string 0 0 kv.1, TStr (escape_string 0 0 kv.2))) (sorted_entries m)).
Definition span_tree (zone : Z -> Z) (s : span) : tree :=
  TObj ([ (str "id", TStr (id_raw (s_id s))); (str "parent", TStr (id_raw (s_parent s))); (str "trace", TStr (id_raw (s_trace s)));
          (str "name", TStr (escape_string 0 0 (s_name s))); (str "service", TStr (escape_string 0 0 (s_service s)));
          (str "timestamp", TStr (time_raw zone (s_ts s))); (str "duration", TNum (write_int (s_dur s))) ] ++
        (if bool_decide (s_tags s = ∅) then [] else [ (str "tags", tags_tree (s_tags s)) ]) ++
        [ (str "timings", timings_tree zone (s_timings s)) ]).
Definition spans_tree (zone : Z -> Z) (l : list span) : tree := match l with [] => TNil | _ => TArr (map (span_tree zone) l) end.

Lemma field_member name v t : Forall simple_char name -> gram t v -> is_member (field name v) (name, t).
Proof. intros Hn Hg. split; [done|]. split; [by apply simple_text|done]. Qed.
Ltac simple_name := repeat (apply Forall_cons_2; [vm_compute; repeat split; congruence|]); apply Forall_nil_2.
Lemma time_gram zone ts : zone_minutes zone -> int64_ok ts -> gram (TStr (time_raw zone ts)) (ts_marshal_json zone ts).
Proof. intros Hz Hts. rewrite marshal_raw. apply g_str. eapply simple_text, rfc3339_simple, time_raw_rfc; done. Qed.
Lemma string_gram s : Forall byte_ok s -> gram (TStr (escape_string 0 0 s)) (write_string s).
Proof. intros H. apply g_str. by eapply escape_any. Qed.
Lemma id_gram id : int64_ok id -> gram (TStr (id_raw id)) (write_id true id).
Proof. intros H. apply (g_str (id_raw id)). by apply simple_text, id_raw_simple. Qed.
Lemma omit_member zone name ts : zone_minutes zone -> int64_ok ts -> Forall simple_char name ->
  Forall2 is_member (omit_zero name ts (ts_marshal_json zone ts)) (omit_tree name ts (time_raw zone ts)).
Proof.
  intros Hz Hts Hn. unfold omit_zero, omit_tree. destruct (ts =? 0); [constructor|]. constructor; [|constructor]. apply field_member; [done|]. by apply time_gram.
Qed.
Lemma timings_gram zone t : zone_minutes zone -> timings_ok t -> gram (timings_tree zone t) (write_timings zone t).
Proof.
  intros Hz (H1 & H2 & H3 & H4). unfold timings_tree, write_timings. apply gram_object.
  repeat apply Forall2_app; apply omit_member; try done; simple_name.
Qed.
Lemma tags_gram m : (forall k v, m !! k = Some v -> Forall byte_ok k /\ Forall byte_ok v) -> gram (tags_tree m) (write_tags m).
Proof.
  intros H. apply gram_object. assert (Hf : Forall (fun kv => Forall byte_ok kv.1 /\ Forall byte_ok kv.2) (sorted_entries m)).
  { apply Forall_forall. intros [k v] Hkv. apply sorted_elem in Hkv. by apply H. }
  induction Hf as [|[k v] l [Hk Hv] Hf IH]; [constructor|]. cbn [map]. constructor; [|done]. cbn [fst snd] in *. split; [done|]. split; [by eapply escape_any|by apply string_gram].
Qed.
Lemma span_gram zone s : zone_minutes zone -> span_ok s -> span_strings (Forall byte_ok) s -> gram (span_tree zone s) (write_span true zone s).
Proof.
  intros Hz (H1 & H2 & H3 & H4 & H5 & H6) (S1 & S2 & S3). unfold span_tree, write_span. apply gram_object. apply Forall2_app; [|apply Forall2_app].
  - constructor; [apply field_member; [simple_name|by apply id_gram]|]. constructor; [apply field_member; [simple_name|by apply id_gram]|].
    constructor; [apply field_member; [simple_name|by apply id_gram]|]. constructor; [apply field_member; [simple_name|by apply string_gram]|].
    constructor; [apply field_member; [simple_name|by apply string_gram]|]. constructor; [apply field_member; [simple_name|by apply time_gram]|].
    constructor; [apply field_member; [simple_name|apply g_num; by apply write_int_spec]|]. constructor.
  - destruct (bool_decide _); [constructor|]. constructor; [apply field_member; [simple_name|by apply tags_gram]|constructor].
  - constructor; [apply field_member; [simple_name|by apply timings_gram]|constructor].
Qed.
Lemma spans_gram zone l : zone_minutes zone -> Forall span_ok l -> Forall (span_strings (Forall byte_ok)) l -> gram (spans_tree zone l) (write_spans zone l).
Proof.
  intros Hz Ho Hs. destruct l as [|s l]; [constructor|]. apply gram_array. revert Ho Hs. generalize (s :: l). intros l' Ho Hs.
  induction l' as [|s' l' IH]; [constructor|]. apply Forall_cons in Ho as [Ho1 Ho]. apply Forall_cons in Hs as [Hs1 Hs].
  cbn [map]. constructor; [by apply span_gram|by apply IH].
Qed.

(* ---------- the value ---------- *)
Notation anything := (fun _ _ => True).
Lemma means_simple l : Forall simple_char l -> means anything (TStr l) (JStr l).
Proof. intros H. apply simple_text in H as (_ & H1 & H2 & _). by apply mn_str. Qed.
Lemma means_escape s : utf8_text s -> means anything (TStr (escape_string 0 0 s)) (JStr s).
Proof. intros H. apply escape_utf8 in H as [H1 H2]. by apply mn_str. Qed.
Lemma members_cons name t v ms vs : Forall simple_char name -> means anything t v -> means_members anything ms vs -> means_members anything ((name, t) :: ms) ((name, v) :: vs).
Proof. intros H Ht Hm. apply simple_text in H as (_ & H1 & H2 & _). by apply mnm_cons. Qed.
Lemma members_app ms1 vs1 ms2 vs2 : means_members anything ms1 vs1 -> means_members anything ms2 vs2 -> means_members anything (ms1 ++ ms2) (vs1 ++ vs2).
Proof. induction 1 as [|raw k t v ms vs H1 H2 H3 H IH]; intros Hm; [done|]. cbn [app]. apply mnm_cons; [done|done|done|by apply IH]. Qed.
Lemma omit_means zone name ts : zone_minutes zone -> int64_ok ts -> Forall simple_char name ->
  exists ms, means_members anything (omit_tree name ts (time_raw zone ts)) ms /\ timing_value name ts ms.
Proof.
  intros Hz Hts Hn. unfold omit_tree. destruct (Z.eqb_spec ts 0) as [->|N].
  - exists []. split; [constructor|by left].
  - pose proof (time_raw_rfc zone ts Hz Hts) as Hr. exists [(name, JStr (time_raw zone ts))]. split; [|right; split; [done|by eexists]].
    apply members_cons; [done|by eapply means_simple, rfc3339_simple|constructor].
Qed.
Lemma sorted_empty m : m <> ∅ -> sorted_entries m <> [].
Proof. intros H E. apply H. apply map_to_list_empty_iff. pose proof (sorted_perm m) as Hp. rewrite E in Hp. by apply Permutation_nil in Hp. Qed.
Lemma span_means zone s : zone_minutes zone -> span_ok s -> span_strings utf8_text s -> exists v, means anything (span_tree zone s) v /\ span_value s v.
Proof.
  intros Hz (H1 & H2 & H3 & H4 & H5 & (T1 & T2 & T3 & T4)) (S1 & S2 & S3).
  destruct (omit_means zone (str "cs") _ Hz T1) as (cs & M1 & V1); [simple_name|]. destruct (omit_means zone (str "cr") _ Hz T2) as (cr & M2 & V2); [simple_name|].
  destruct (omit_means zone (str "ss") _ Hz T3) as (ss & M3 & V3); [simple_name|]. destruct (omit_means zone (str "sr") _ Hz T4) as (sr & M4 & V4); [simple_name|].
  assert (exists tags, means_members anything (if bool_decide (s_tags s = ∅) then [] else [ (str "tags", tags_tree (s_tags s)) ]) tags /\ tags_value (s_tags s) tags) as (tags & Mt & Vt).
  { destruct (bool_decide_reflect (s_tags s = ∅)) as [E|N]; [exists []; split; [constructor|by left]|].
    eexists [(str "tags", JObj (map (fun kv => (kv.1, JStr kv.2)) (sorted_entries (s_tags s))))]. split.
    - apply members_cons; [simple_name| |constructor]. apply mn_obj.
      assert (Hf : Forall (fun kv => utf8_text kv.1 /\ utf8_text kv.2) (sorted_entries (s_tags s))).
      { apply Forall_forall. intros [k v] Hkv. apply sorted_elem in Hkv. by apply S3. }
      induction Hf as [|[k v] l [Hk Hv] Hf IH]; [constructor|]. cbn [map fst snd] in *. apply escape_utf8 in Hk as [K1 K2]. apply mnm_cons; [done|done|by apply means_escape|done].
    - right. split; [done|]. eexists. split; [reflexivity|]. split; [intros k v; apply sorted_elem|apply sorted_sorted]. }
  eexists. split.
  - apply mn_obj. apply members_app; [|apply members_app; [exact Mt|]].
    + apply members_cons; [simple_name|by apply means_simple, id_raw_simple|]. apply members_cons; [simple_name|by apply means_simple, id_raw_simple|].
      apply members_cons; [simple_name|by apply means_simple, id_raw_simple|]. apply members_cons; [simple_name|by apply means_escape|].
      apply members_cons; [simple_name|by apply means_escape|]. apply members_cons; [simple_name|by eapply means_simple, rfc3339_simple, time_raw_rfc|].
      apply members_cons; [simple_name|apply mn_num; by apply write_int_spec|constructor].
    + apply members_cons; [simple_name| |constructor]. apply mn_obj. apply members_app; [exact M1|]. apply members_app; [exact M2|]. apply members_app; [exact M3|exact M4].
  - eexists _, _, _, _, _, tags, cs, cr, ss, sr. split; [reflexivity|]. split; [by apply id_raw_digits|]. split; [by apply id_raw_digits|]. split; [by apply id_raw_digits|].
    split; [by apply time_raw_rfc|]. split; [by apply write_int_spec|]. done.
Qed.
Lemma utf8_bytes s : utf8_text s -> Forall byte_ok s.
Proof.
  induction 1 as [|cp l Hc Hs H IH]; [apply Forall_nil_2|]. apply Forall_app_2; [|done]. unfold utf8, byte_ok.
  destruct (Z.ltb_spec cp 128); [|destruct (Z.ltb_spec cp 2048); [|destruct (Z.ltb_spec cp 65536)]]; repeat (apply Forall_cons_2; [Z.div_mod_to_equations; lia|]); apply Forall_nil_2.
Qed.
Lemma utf8_span s : span_strings utf8_text s -> span_strings (Forall byte_ok) s.
Proof.
  intros (H1 & H2 & H3). split; [by apply utf8_bytes|]. split; [by apply utf8_bytes|]. intros k v Hk. apply H3 in Hk as [Hk Hv]. split; by apply utf8_bytes.
Qed.
Lemma spans_text zone l : zone_minutes zone -> Forall span_ok l -> Forall (span_strings utf8_text) l ->
  exists t v, gram t (write_spans zone l) /\ means anything t v /\ spans_value l v.
Proof.
  intros Hz Ho Hs. exists (spans_tree zone l).
  assert (Hg : gram (spans_tree zone l) (write_spans zone l)). { apply spans_gram; [done|done|]. eapply Forall_impl; [exact Hs|]. apply utf8_span. }
  assert (exists vs, means_all anything (map (span_tree zone) l) vs /\ Forall2 span_value l vs) as (vs & M & V).
  { clear Hg. induction Ho as [|s l Ho1 Ho IH]; [exists []; split; constructor|]. apply Forall_cons in Hs as [Hs1 Hs]. destruct (IH Hs) as (vs & M & V).
    destruct (span_means zone s Hz Ho1 Hs1) as (v & Mv & Vv). exists (v :: vs). split; by constructor. }
  destruct l as [|s l]; [exists JNull; split; [done|]; split; [constructor|by left]|].
  exists (JArr vs). split; [done|]. split; [by apply mn_arr|]. right. split; [done|by exists vs].
Qed.

(* ---------- no byte that HTML would take for markup ---------- *)
Ltac plain_name := apply Forall_cons_2; [unfold plain_html; lia|]; apply Forall_app_2; [|apply Forall_cons_2; [unfold plain_html; lia|apply Forall_nil_2]].
Lemma quoted_plain l : Forall plain_html l -> Forall plain_html (34 :: l ++ [34]).
Proof. intros H. by plain_name. Qed.
Lemma field_plain name v : Forall simple_char name -> Forall plain_html v -> Forall plain_html (field name v).1 /\ Forall plain_html (field name v).2.
Proof. intros Hn Hv. split; [|done]. apply quoted_plain. by apply simple_text. Qed.
Lemma time_plain zone ts : zone_minutes zone -> int64_ok ts -> Forall plain_html (ts_marshal_json zone ts).
Proof. intros Hz Hts. rewrite marshal_raw. apply quoted_plain. eapply simple_text, rfc3339_simple, time_raw_rfc; done. Qed.
Lemma string_plain s : Forall byte_ok s -> Forall plain_html (write_string s).
Proof. intros H. apply quoted_plain. by eapply escape_any. Qed.
Lemma id_plain a id : int64_ok id -> Forall plain_html (write_id a id).
Proof. intros H. destruct a; [apply quoted_plain; by apply simple_text, id_raw_simple|by apply write_int_spec]. Qed.
Lemma span_plain a zone s : zone_minutes zone -> span_ok s -> span_strings (Forall byte_ok) s -> Forall plain_html (write_span a zone s).
Proof.
  intros Hz (H1 & H2 & H3 & H4 & H5 & (T1 & T2 & T3 & T4)) (S1 & S2 & S3). apply object_plain. apply Forall_app_2; [|apply Forall_app_2].
  - repeat (apply Forall_cons_2; [apply field_plain; [simple_name|first [by apply id_plain|by apply string_plain|by apply time_plain|by apply write_int_spec]]|]). apply Forall_nil_2.
  - destruct (bool_decide _); [apply Forall_nil_2|]. apply Forall_cons_2; [|apply Forall_nil_2]. apply field_plain; [simple_name|]. apply object_plain.
    apply Forall_map. apply Forall_forall. intros [k v] Hkv. apply sorted_elem, S3 in Hkv as [Hk Hv]. split; by apply string_plain.
  - apply Forall_cons_2; [|apply Forall_nil_2]. apply field_plain; [simple_name|]. apply object_plain.
    repeat apply Forall_app_2; unfold omit_zero; (destruct (_ =? 0); [apply Forall_nil_2|]); (apply Forall_cons_2; [|apply Forall_nil_2]); (apply field_plain; [simple_name|by apply time_plain]).
Qed.
Lemma spans_plain zone l : zone_minutes zone -> Forall span_ok l -> Forall (span_strings (Forall byte_ok)) l -> Forall plain_html (write_spans zone l).
Proof.
  intros Hz Ho Hs. destruct l as [|s l]; [repeat (apply Forall_cons_2; [vm_compute; repeat split; congruence|]); apply Forall_nil_2|].
  unfold write_spans. apply Forall_cons_2; [unfold plain_html; lia|]. apply Forall_app_2; [|apply Forall_cons_2; [unfold plain_html; lia|apply Forall_nil_2]].
  apply list_plain, Forall_map. rewrite Forall_forall in Ho, Hs |- *. intros x Hx. apply span_plain; [done|by apply Ho|by apply Hs].
Qed.

(* ---------- reading ---------- *)
Definition fix_string (s : gostring) : gostring := unquote 0 (escape_string 0 0 s).
Definition fix_tags (m : gmap gostring gostring) : gmap gostring gostring :=
  foldl (fun m kv => <[fix_string kv.1 := fix_string kv.2]> m) ∅ (sorted_entries m).
Definition fix_span (s : span) : span :=
  Span (s_id s) (s_parent s) (s_trace s) (fix_string (s_name s)) (fix_string (s_service s)) (s_ts s) (s_dur s) (fix_tags (s_tags s)) (s_timings s).

Lemma store_step {T} fields k v ms (t t' : T) store : find_field fields (unquote 0 k) = Some store -> store v t = Some t' ->
  store_members fields ((k, v) :: ms) t = store_members fields ms t'.
Proof. intros E1 E2. cbn [store_members]. by rewrite E1, E2. Qed.
Lemma within_store {T F} (get : T -> F) set store v t f : store v (get t) = Some f -> within get set store v t = Some (set f t).
Proof. intros E. unfold within. by rewrite E. Qed.
Lemma store_entries_fix l : forall m, store_entries [] store_string (map (fun kv => (escape_string 0 0 kv.1, TStr (escape_string 0 0 kv.2))) l) m =
  Some (foldl (fun m kv => <[fix_string kv.1 := fix_string kv.2]> m) m l).
Proof. induction l as [|[k v] l IH]; intros m; [done|]. cbn [map store_entries store_string fst snd foldl]. apply IH. Qed.

Lemma store_omit zone name ts (get : timings -> Z) set ms t : zone_minutes zone -> int64_ok ts ->
  find_field timing_fields (unquote 0 name) = Some (within get set store_time) -> (ts = 0 -> set ts t = t) ->
  store_members timing_fields (omit_tree name ts (time_raw zone ts) ++ ms) t = store_members timing_fields ms (set ts t).
Proof.
  intros Hz Hts E H0. unfold omit_tree. destruct (Z.eqb_spec ts 0) as [E0|N]; [by rewrite H0|]. cbn [app].
  apply (store_step _ _ _ _ _ _ _ E). apply within_store. by apply store_time_raw.
Qed.
Lemma store_timings zone t : zone_minutes zone -> timings_ok t -> store_struct timing_fields (timings_tree zone t) zero_timings = Some t.
Proof.
  intros Hz (H1 & H2 & H3 & H4). unfold timings_tree. cbn [store_struct].
  rewrite (store_omit zone (str "cs") (tCS t) tCS set_cs) by (first [done|reflexivity|by intros ->]).
  rewrite (store_omit zone (str "cr") (tCR t) tCR set_cr) by (first [done|reflexivity|by intros ->]).
  rewrite (store_omit zone (str "ss") (tSS t) tSS set_ss) by (first [done|reflexivity|by intros ->]).
  rewrite <- (app_nil_r (omit_tree (str "sr") _ _)).
  rewrite (store_omit zone (str "sr") (tSR t) tSR set_sr) by (first [done|reflexivity|by intros ->]).
  cbn [store_members]. by destruct t.
Qed.
Lemma store_span zone s : zone_minutes zone -> span_ok s -> store_struct proxy_fields (span_tree zone s) zero_span = Some (fix_span s).
Proof.
  intros Hz (H1 & H2 & H3 & H4 & H5 & H6). unfold span_tree. cbn [store_struct app].
  rewrite (store_step _ _ _ _ _ (set_id (s_id s) zero_span) (within s_id set_id store_id)) by (first [reflexivity|apply within_store; by apply store_id_raw]).
  erewrite (store_step _ _ _ _ _ _ (within s_parent set_parent store_id)) by (first [reflexivity|apply within_store; by apply store_id_raw]).
  erewrite (store_step _ _ _ _ _ _ (within s_trace set_trace store_id)) by (first [reflexivity|apply within_store; by apply store_id_raw]).
  erewrite (store_step _ _ _ _ _ _ (within s_name set_name store_string)) by (first [reflexivity|apply within_store; reflexivity]).
  erewrite (store_step _ _ _ _ _ _ (within s_service set_service store_string)) by (first [reflexivity|apply within_store; reflexivity]).
  erewrite (store_step _ _ _ _ _ _ (within s_ts set_ts store_time)) by (first [reflexivity|apply within_store; by apply store_time_raw]).
  erewrite (store_step _ _ _ _ _ _ (within s_dur set_dur store_int)) by (first [reflexivity|apply within_store; cbn [store_int]; by apply write_int_spec]).
  destruct (bool_decide_reflect (s_tags s = ∅)) as [E|N]; cbn [app].
  - erewrite (store_step _ _ _ _ _ _ (within s_timings set_timings (store_struct timing_fields))) by (first [reflexivity|apply within_store; by apply store_timings]).
    cbn [store_members]. f_equal. unfold fix_span, fix_tags. rewrite E. reflexivity.
  - erewrite (store_step _ _ _ _ _ _ (within s_tags set_tags (store_map [] store_string))) by (first [reflexivity|apply within_store; unfold tags_tree; cbn [store_map]; apply store_entries_fix]).
    erewrite (store_step _ _ _ _ _ _ (within s_timings set_timings (store_struct timing_fields))) by (first [reflexivity|apply within_store; by apply store_timings]).
    reflexivity.
Qed.

Lemma json_text_gram t l : gram t l -> nesting t <= max_nesting -> json_text l = Scanned t [].
Proof.
  intros Hg Hn. unfold json_text. pose proof (skip_to_gram [] t l [] ltac:(constructor) Hg) as E. cbn [app] in E. rewrite app_nil_r in E. rewrite E.
  destruct scan_complete as [Hc _]. rewrite <- (app_nil_r l) at 2. rewrite (Hc t l Hg); [done|by destruct t|right; lia|lia].
Qed.
Lemma nesting_obj ms k : 0 <= k -> Forall (fun m : bytes * tree => nesting m.2 <= k) ms -> nesting (TObj ms) <= 1 + k.
Proof. intros Hk H. cbn [nesting]. apply Zplus_le_compat_l. induction H as [|m ms Hm H IH]; cbn [map foldr]; lia. Qed.
Lemma nesting_arr ts k : 0 <= k -> Forall (fun t => nesting t <= k) ts -> nesting (TArr ts) <= 1 + k.
Proof. intros Hk H. cbn [nesting]. apply Zplus_le_compat_l. induction H as [|m ms Hm H IH]; cbn [map foldr]; lia. Qed.
Lemma omit_nesting name ts raw : Forall (fun m : bytes * tree => nesting m.2 <= 0) (omit_tree name ts raw).
Proof. unfold omit_tree. destruct (ts =? 0); [apply Forall_nil_2|]. apply Forall_cons_2; [done|apply Forall_nil_2]. Qed.
Lemma span_nesting zone s : nesting (span_tree zone s) <= 2.
Proof.
  unfold span_tree. change 2 with (1 + 1). apply nesting_obj; [lia|]. apply Forall_app_2; [repeat (apply Forall_cons_2; [cbn; lia|]); apply Forall_nil_2|]. apply Forall_app_2.
  - destruct (bool_decide _); [apply Forall_nil_2|]. apply Forall_cons_2; [|apply Forall_nil_2]. cbn [snd]. unfold tags_tree. change 1 with (1 + 0) at 1. apply nesting_obj; [lia|].
    apply Forall_map, Forall_forall. intros [k v] _. cbn. lia.
  - apply Forall_cons_2; [|apply Forall_nil_2]. cbn [snd]. unfold timings_tree. change 1 with (1 + 0) at 1. apply nesting_obj; [lia|]. repeat apply Forall_app_2; apply omit_nesting.
Qed.
Lemma spans_nesting zone l : nesting (spans_tree zone l) <= max_nesting.
Proof.
  unfold max_nesting. destruct l as [|s l]; [cbn; lia|]. unfold spans_tree. etransitivity; [apply (nesting_arr _ 2); [lia|]|lia].
  apply Forall_map, Forall_forall. intros x _. apply span_nesting.
Qed.
Lemma fresh_spans zone l : zone_minutes zone -> Forall span_ok l -> fresh (store_struct proxy_fields) zero_span (map (span_tree zone) l) = Some (map fix_span l).
Proof.
  intros Hz H. induction H as [|s l Hs H IH]; [done|]. cbn [map fresh]. rewrite store_span by done. by rewrite IH.
Qed.
Lemma read_fixed zone l : zone_minutes zone -> Forall span_ok l -> Forall (span_strings (Forall byte_ok)) l ->
  read_spans (write_spans zone l) = Some (map fix_span l).
Proof.
  intros Hz Ho Hs. unfold read_spans. rewrite (json_text_gram (spans_tree zone l)); [|by apply spans_gram|apply spans_nesting].
  destruct l as [|s l]; [done|]. unfold spans_tree, store_slice.
  pose proof (store_elements_fresh zero_span (store_struct proxy_fields) (map (span_tree zone) (s :: l)) [] 0) as E. cbn [length replicate app] in E. rewrite E.
  rewrite fresh_spans by done. done.
Qed.
Lemma fix_repaired s : Forall byte_ok s -> repaired s (fix_string s).
Proof. intros H. by eapply escape_any. Qed.
Lemma fix_utf8 s : utf8_text s -> fix_string s = s.
Proof. intros H. apply repaired_utf8; [|done]. apply fix_repaired. by apply utf8_bytes. Qed.
Lemma foldl_fix (f : gostring -> gostring) l : forall m : gmap gostring gostring,
  (forall k v, (k, v) ∈ l -> is_Some (foldl (fun m kv => <[f kv.1 := f kv.2]> m) m l !! f k)) /\
  (forall k, is_Some (m !! k) -> is_Some (foldl (fun m kv => <[f kv.1 := f kv.2]> m) m l !! k)) /\
  (forall k' v', foldl (fun m kv => <[f kv.1 := f kv.2]> m) m l !! k' = Some v' -> m !! k' = Some v' \/ exists k v, (k, v) ∈ l /\ k' = f k /\ v' = f v).
Proof.
  induction l as [|[k0 v0] l IH]; intros m; [split; [intros k v H; by apply elem_of_nil in H|split; [done|by left]]|]. cbn [foldl fst snd].
  destruct (IH (<[f k0:=f v0]> m)) as (I1 & I2 & I3). split; [|split].
  - intros k v H. apply elem_of_cons in H as [[= -> ->]|H]; [|by eapply I1]. apply I2. rewrite lookup_insert. by eexists.
  - intros k H. apply I2. destruct (decide (k = f k0)) as [->|N]; [rewrite lookup_insert; by eexists|by rewrite lookup_insert_ne].
  - intros k' v' H. apply I3 in H as [H|(k & v & H & -> & ->)]; [|right; exists k, v; split; [by right|done]].
    destruct (decide (k' = f k0)) as [->|N]; [rewrite lookup_insert in H; injection H as <-; right; exists k0, v0; split; [by left|done]|].
    rewrite lookup_insert_ne in H by done. by left.
Qed.
Lemma fix_span_repaired s : span_strings (Forall byte_ok) s -> repaired_span s (fix_span s).
Proof.
  intros (S1 & S2 & S3). destruct (foldl_fix fix_string (sorted_entries (s_tags s)) ∅) as (F1 & _ & F2). unfold repaired_span, fix_span; cbn.
  do 3 (split; [done|]). split; [by apply fix_repaired|]. split; [by apply fix_repaired|]. do 3 (split; [done|]). split.
  - intros k v H. exists (fix_string k). split; [apply fix_repaired; exact (proj1 (S3 k v H))|]. apply sorted_elem in H. by eapply F1.
  - intros k' v' H. apply F2 in H as [H|(k & v & H & -> & ->)]; [by rewrite lookup_empty in H|]. apply sorted_elem in H. exists k, v. split; [done|].
    apply S3 in H as [Hk Hv]. split; by apply fix_repaired.
Qed.
Lemma fix_tags_utf8 m : (forall k v, m !! k = Some v -> utf8_text k /\ utf8_text v) -> fix_tags m = m.
Proof.
  intros H. unfold fix_tags. assert (Hf : Forall (fun kv => utf8_text kv.1 /\ utf8_text kv.2) (sorted_entries m)).
  { apply Forall_forall. intros [k v] Hkv. apply sorted_elem in Hkv. by apply H. }
  assert (E : forall m0 : gmap gostring gostring, foldl (fun m kv => <[fix_string kv.1 := fix_string kv.2]> m) m0 (sorted_entries m) = foldl (fun m kv => <[kv.1 := kv.2]> m) m0 (sorted_entries m)).
  { induction Hf as [|[k v] l [Hk Hv] Hf IH]; intros m0; [done|]. cbn [foldl fst snd] in *. rewrite (fix_utf8 k), (fix_utf8 v) by done. apply IH. }
  rewrite E. clear E Hf H. rewrite <- (list_to_map_to_list m) at 2.
  assert (Hn : NoDup (sorted_entries m).*1). { rewrite sorted_perm. apply NoDup_fst_map_to_list. }
  rewrite <- (list_to_map_proper (sorted_entries m) (map_to_list m) Hn (sorted_perm m)).
  revert Hn. generalize (sorted_entries m) as l. intros l Hn.
  assert (E : forall m0 : gmap gostring gostring, foldl (fun m kv => <[kv.1 := kv.2]> m) m0 l = list_to_map l ∪ m0).
  { induction l as [|[k v] l IH]; intros m0; [cbn [foldl list_to_map foldr]; symmetry; apply (left_id_L ∅ (∪))|]. cbn [foldl fst snd]. rewrite fmap_cons in Hn. apply NoDup_cons in Hn as [N1 N2]. rewrite IH by done.
    rewrite list_to_map_cons. rewrite <- insert_union_l. rewrite insert_union_r; [done|]. by apply not_elem_of_list_to_map_1. }
  rewrite E. by rewrite (right_id_L ∅ (∪)).
Qed.
Lemma fix_span_utf8 s : span_strings utf8_text s -> fix_span s = s.
Proof. intros (S1 & S2 & S3). unfold fix_span. rewrite (fix_utf8 _ S1), (fix_utf8 _ S2), (fix_tags_utf8 _ S3). by destruct s. Qed.
Lemma read_written zone l : zone_minutes zone -> Forall span_ok l -> Forall (span_strings (Forall byte_ok)) l ->
  exists l', read_spans (write_spans zone l) = Some l' /\ Forall2 repaired_span l l'.
Proof.
  intros Hz Ho Hs. exists (map fix_span l). split; [by apply read_fixed|]. clear Ho. induction Hs as [|s l Hs1 Hs IH]; [constructor|]. cbn [map]. constructor; [by apply fix_span_repaired|done].
Qed.
Lemma read_back zone l : zone_minutes zone -> Forall span_ok l -> Forall (span_strings utf8_text) l -> read_spans (write_spans zone l) = Some l.
Proof.
  intros Hz Ho Hs. rewrite read_fixed; [|done|done|eapply Forall_impl; [exact Hs|]; apply utf8_span]. f_equal. clear Ho.
  induction Hs as [|s l Hs1 Hs IH]; [done|]. cbn [map]. by rewrite IH, fix_span_utf8.
Qed.
Lemma read_back_one zone s : zone_minutes zone -> span_ok s -> span_strings utf8_text s -> read_span (write_span true zone s) = Some s.
Proof.
  intros Hz Ho Hs. unfold read_span. rewrite (json_text_gram (span_tree zone s)); [|apply span_gram; [done|done|by apply utf8_span]|pose proof (span_nesting zone s); unfold max_nesting; lia].
  rewrite store_span by done. by rewrite fix_span_utf8.
Qed.

(** Without an address, the ids are numbers, which are not read. *)
Lemma value_refused zone s : zone_minutes zone -> span_ok s -> span_strings (Forall byte_ok) s -> read_span (write_span false zone s) = None.
Proof.
  intros Hz (H1 & H2 & H3 & H4 & H5 & H6) (S1 & S2 & S3). unfold read_span.
  set (t := TObj ([ (str "id", TNum (write_int (s_id s))); (str "parent", TNum (write_int (s_parent s))); (str "trace", TNum (write_int (s_trace s)));
          (str "name", TStr (escape_string 0 0 (s_name s))); (str "service", TStr (escape_string 0 0 (s_service s)));
          (str "timestamp", TStr (time_raw zone (s_ts s))); (str "duration", TNum (write_int (s_dur s))) ] ++
        (if bool_decide (s_tags s = ∅) then [] else [ (str "tags", tags_tree (s_tags s)) ]) ++
        [ (str "timings", timings_tree zone (s_timings s)) ])).
  rewrite (json_text_gram t).
  - unfold t. cbn [store_struct app]. assert (E : store_id (TNum (write_int (s_id s))) (s_id zero_span) = None).
    { cbn [store_id]. apply unmarshal_unquoted. apply number_not_quoted. by apply write_int_spec. }
    cbn [store_members]. change (find_field proxy_fields (unquote 0 (str "id"))) with (Some (within s_id set_id store_id)). unfold within. by rewrite E.
  - unfold t, write_span. apply gram_object. apply Forall2_app; [|apply Forall2_app].
    + constructor; [apply field_member; [simple_name|apply g_num; by apply write_int_spec]|]. constructor; [apply field_member; [simple_name|apply g_num; by apply write_int_spec]|].
      constructor; [apply field_member; [simple_name|apply g_num; by apply write_int_spec]|]. constructor; [apply field_member; [simple_name|by apply string_gram]|].
      constructor; [apply field_member; [simple_name|by apply string_gram]|]. constructor; [apply field_member; [simple_name|by apply time_gram]|].
      constructor; [apply field_member; [simple_name|apply g_num; by apply write_int_spec]|]. constructor.
    + destruct (bool_decide _); [constructor|]. constructor; [apply field_member; [simple_name|by apply tags_gram]|constructor].
    + constructor; [apply field_member; [simple_name|by apply timings_gram]|constructor].
  - pose proof (span_nesting zone s) as Hn. unfold max_nesting. etransitivity; [|etransitivity; [exact Hn|lia]]. unfold t, span_tree. cbn [nesting app map foldr]. done.
Qed.
Lemma tags_merged : exists s, span_ok s /\ span_strings (Forall byte_ok) s /\ s_tags s = <[[255] := str "1"]> {[ [254] := str "2" ]} /\
  read_spans (write_spans (fun _ => 0) [s]) = Some [Span 1 1 1 [] [] 0 0 {[ [239; 191; 189] := str "1" ]} zero_timings].
Proof.
  set (s := Span 1 1 1 [] [] 0 0 (<[[255] := str "1"]> {[ [254] := str "2" ]}) zero_timings).
  assert (span_ok s /\ span_strings (Forall byte_ok) s) as [Ho Hs].
  { split; [unfold span_ok, timings_ok; cbn; zlia|].
    split; [apply Forall_nil_2|]. split; [apply Forall_nil_2|]. unfold s. cbn [s_tags]. intros k v H. apply lookup_insert_Some in H as [[<- <-]|[_ H]]; [|apply lookup_singleton_Some in H as [<- <-]];
    (split; (apply Forall_cons_2; [vm_compute; split; congruence|apply Forall_nil_2])). }
  exists s. split; [exact Ho|]. split; [exact Hs|]. split; [done|]. rewrite read_fixed.
  - cbn [map]. unfold fix_span, s. cbn [s_id s_parent s_trace s_name s_service s_ts s_dur s_tags s_timings]. do 3 f_equal. unfold fix_tags.
    replace (sorted_entries (<[[255] := str "1"]> {[ [254] := str "2" ]})) with [([254], str "2"); ([255], str "1")] by (vm_compute; reflexivity).
    cbn [foldl fst snd]. change (fix_string [255]) with [239; 191; 189]. change (fix_string [254]) with [239; 191; 189].
    rewrite insert_insert. reflexivity.
  - intros x. split; [lia|done].
  - by apply Forall_cons_2.
  - by apply Forall_cons_2.
Qed.

Lemma any_spans zone l : zone_minutes zone -> Forall span_ok l -> Forall (span_strings (Forall byte_ok)) l ->
  (exists t, gram t (write_spans zone l)) /\ exists l', read_spans (write_spans zone l) = Some l' /\ Forall2 repaired_span l l'.
Proof. intros Hz Ho Hs. split; [exists (spans_tree zone l); by apply spans_gram|by apply read_written]. Qed.
Lemma by_value zone s : zone_minutes zone -> span_ok s -> span_strings utf8_text s ->
  read_span (write_span false zone s) = None /\ read_span (write_span true zone s) = Some s.
Proof. intros Hz Ho Hs. split; [apply value_refused; [done|done|by apply utf8_span]|by apply read_back_one]. Qed.
Lemma text_of_a_span :
  let s := Span 5 (-2) 7 (str "a<b" ++ [10; 195; 164]) (str "svc") 1616893199500000000 (-12345)
             (list_to_map [(str "b", str "2"); (str "a", [34; 92; 1])]) (Timings 0 10 0 0) in
  zone_minutes (fun _ => 3600) /\ span_ok s /\ span_strings utf8_text s /\
  write_spans (fun _ => 3600) [s] =
    str "[{""id"":""0000000000000005"",""parent"":""fffffffffffffffe"",""trace"":""0000000000000007"",""name"":""a\u003cb\n" ++ [195; 164] ++
    str """,""service"":""svc"",""timestamp"":""2021-03-28T01:59:59.5+01:00"",""duration"":-12345,""tags"":{""a"":""\""\\\u0001"",""b"":""2""},""timings"":{""cr"":""1970-01-01T01:00:00.00000001+01:00""}}]" /\
  write_spans (fun _ => 3600) [] = str "null".
Proof.
  cbv zeta. split; [intros x; split; [lia|done]|]. split; [unfold span_ok, timings_ok; cbn; zlia|]. split; [|split; [vm_compute; reflexivity|reflexivity]].
  split; [|split].
  - cbn [s_name]. repeat (apply utf8_text_ascii; [vm_compute; split; congruence|]). change [195; 164] with (utf8 228 ++ []). constructor; [lia|unfold surrogate; lia|constructor].
  - cbn [s_service]. repeat (apply utf8_text_ascii; [vm_compute; split; congruence|]). constructor.
  - cbn [s_tags list_to_map foldr fst snd]. intros k v H.
    apply lookup_insert_Some in H as [[<- <-]|[_ H]]; [|apply lookup_insert_Some in H as [[<- <-]|[_ H]]; [|by rewrite lookup_empty in H]];
      split; repeat (apply utf8_text_ascii; [vm_compute; split; congruence|]); constructor.
Qed.
Lemma value_witness : exists zone s, zone_minutes zone /\ span_ok s /\ span_strings utf8_text s /\ read_span (write_span false zone s) <> Some s.
Proof.
  destruct text_of_a_span as (Hz & Ho & Hs & _). eexists _, _. split; [exact Hz|]. split; [exact Ho|]. split; [exact Hs|]. by rewrite (proj1 (by_value _ _ Hz Ho Hs)).
Qed.
