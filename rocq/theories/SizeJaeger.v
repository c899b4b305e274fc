From Verif Require Import Base IdModel SpanModel JsonModel CodecModel JaegerModel HandlerModel HandlerSpec HandlerProofs SystemSpec StdJsonModel StdJsonSpec StdJsonProofs StdSafeProofs
  SizeSpec SizeProofs SizeHttp.
Local Open Scope nat_scope.

(* ---------- trees ---------- *)

Fixpoint tsize (t : tree) : nat :=
  match t with
  | TStr raw => 2 + length raw
  | TArr l => 2 + list_sum (map tsize l)
  | TObj l => 2 + list_sum (map (fun m => 2 + length m.1 + tsize m.2) l)
  | _ => 1
  end.

Lemma scan_string_length l s rest : scan_string l = Some (s, rest) -> length s + 1 + length rest = length l.
Proof. intros E. apply (scan_string_sound (length l)) in E as [_ ->]; [|done]. rewrite app_length. cbn [length]. lia. Qed.

Lemma scan_size fuel :
  (forall depth l t rest, scan_value fuel depth l = Scanned t rest -> tsize t + length rest <= length l) /\
  (forall depth l ts rest, scan_elements fuel depth l = Scanned ts rest -> list_sum (map tsize ts) + 1 + length rest <= length l) /\
  (forall depth l ms rest, scan_members fuel depth l = Scanned ms rest -> list_sum (map (fun m => 2 + length m.1 + tsize m.2) ms) + 1 + length rest <= length l).
Proof.
  induction fuel as [|fuel (IHv & IHe & IHm)]; [done|]. split_and!.
  - intros depth l t rest E. pose proof (scan_value_shorter _ _ _ _ _ E) as Hs. cbn [scan_value] in E. destruct l as [|c r]; [done|]. cbn [length] in *.
    destruct (c =? 123)%Z.
    { destruct (max_nesting <? depth + 1)%Z; [done|]. pose proof (skip_space_length r) as Hr. destruct (skip_space r) as [|d r']; [done|]. cbn [length] in Hr.
      destruct (d =? 125)%Z; [injection E as <- <-; cbn; lia|]. destruct (scan_members fuel (depth + 1) (d :: r')) as [ms rest'| |] eqn:Em; cbn [sthen] in E; try done.
      injection E as <- <-. apply IHm in Em. cbn [tsize length] in *. lia. }
    destruct (c =? 91)%Z.
    { destruct (max_nesting <? depth + 1)%Z; [done|]. pose proof (skip_space_length r) as Hr. destruct (skip_space r) as [|d r']; [done|]. cbn [length] in Hr.
      destruct (d =? 93)%Z; [injection E as <- <-; cbn; lia|]. destruct (scan_elements fuel (depth + 1) (d :: r')) as [ms rest'| |] eqn:Em; cbn [sthen] in E; try done.
      injection E as <- <-. apply IHe in Em. cbn [tsize length] in *. lia. }
    destruct (c =? 34)%Z.
    { destruct (scan_string r) as [[s rest']|] eqn:Es; cbn [of_option sthen] in E; [|done]. injection E as <- <-. apply scan_string_length in Es. cbn [tsize]. lia. }
    destruct (c =? 116)%Z; [destruct (scan_word _ _); [|done]; injection E as <- <-; cbn [tsize]; lia|].
    destruct (c =? 102)%Z; [destruct (scan_word _ _); [|done]; injection E as <- <-; cbn [tsize]; lia|].
    destruct (c =? 110)%Z; [destruct (scan_word _ _); [|done]; injection E as <- <-; cbn [tsize]; lia|].
    destruct (scan_number _) as [[n rest']|]; cbn [of_option sthen] in E; [|done]. injection E as <- <-. cbn [tsize]. lia.
  - intros depth l ts rest E. cbn [scan_elements] in E. destruct (scan_value fuel depth l) as [v r| |] eqn:Ev; cbn [sthen] in E; try done. apply IHv in Ev.
    pose proof (skip_space_length r) as Hr. destruct (skip_space r) as [|d r']; [done|]. cbn [length] in Hr. destruct (d =? 44)%Z.
    + destruct (scan_elements fuel depth (skip_space r')) as [vs r2| |] eqn:Ee; cbn [sthen] in E; try done. injection E as <- <-. apply IHe in Ee.
      pose proof (skip_space_length r'). change (list_sum (map tsize (v :: vs))) with (tsize v + list_sum (map tsize vs)). lia.
    + destruct (d =? 93)%Z; [|done]. injection E as <- <-. change (list_sum (map tsize [v])) with (tsize v + 0). lia.
  - intros depth l ms rest E. cbn [scan_members] in E. destruct l as [|q r]; [done|]. destruct (q =? 34)%Z; [|done].
    destruct (scan_string r) as [[k r1]|] eqn:Es; cbn [of_option sthen] in E; [|done]. apply scan_string_length in Es.
    pose proof (skip_space_length r1) as H1. destruct (skip_space r1) as [|d r2]; [done|]. cbn [length] in *. destruct (d =? 58)%Z; [|done].
    destruct (scan_value fuel depth (skip_space r2)) as [v r3| |] eqn:Ev; cbn [sthen] in E; try done. apply IHv in Ev. pose proof (skip_space_length r2).
    pose proof (skip_space_length r3) as H3. destruct (skip_space r3) as [|d' r4]; [done|]. cbn [length] in *. destruct (d' =? 44)%Z.
    + destruct (scan_members fuel depth (skip_space r4)) as [vs r5| |] eqn:Ee; cbn [sthen] in E; try done. injection E as <- <-. apply IHm in Ee.
      pose proof (skip_space_length r4). cbn [map list_sum fst snd]. change (list_sum (?a :: ?b)) with (a + list_sum b). lia.
    + destruct (d' =? 125)%Z; [|done]. injection E as <- <-. cbn [map fst snd]. change (list_sum (?a :: ?b)) with (a + list_sum b). change (list_sum []) with 0. lia.
Qed.

(* ---------- values ---------- *)

(** Storing adds at most three for each byte, and two less in a list. *)
Definition sw {T} (store : tree -> T -> option T) (w : T -> nat) : Prop := forall t old new, store t old = Some new -> w new <= w old + 3 * tsize t.
Definition swe {T} (store : tree -> T -> option T) (w : T -> nat) : Prop := forall t old new, store t old = Some new -> w new + 2 <= w old + 3 * tsize t.

Lemma sw_zero {T} (store : tree -> T -> option T) : sw store (fun _ => 0).
Proof. intros t old new _. lia. Qed.
Lemma sw_string : sw store_string (fun s => length s).
Proof.
  intros [] old new; cbn [store_string]; try done; intros [= <-]; [lia|]. pose proof (unquote_length (length raw) 0 raw (le_n _)). cbn [tsize]. lia.
Qed.
Definition jvw (v : jvalue) : nat := match v with JVString s => length s | JVOther => 0 end.
Lemma sw_interface : sw store_interface jvw.
Proof.
  intros t old new. unfold store_interface. destruct (interface_ok t); [|done]. intros [= <-]. destruct t; cbn [jvw]; try lia.
  pose proof (unquote_length (length raw) 0 raw (le_n _)). cbn [tsize]. lia.
Qed.
Lemma sw_within {T F} (get : T -> F) (set : F -> T -> T) store (wf : F -> nat) (w : T -> nat) : sw store wf ->
  (forall f t, w (set f t) + wf (get t) <= w t + wf f) -> sw (within get set store) w.
Proof.
  intros H Hs t old new. unfold within. destruct (store t (get old)) as [f|] eqn:E; [|done]. intros [= <-]. apply H in E. specialize (Hs f old). lia.
Qed.

Lemma find_field_in {T} (fields : list (gostring * (tree -> T -> option T))) name store : find_field fields name = Some store -> exists n, (n, store) ∈ fields.
Proof.
  induction fields as [|[n d] fs IH]; cbn [find_field]; [done|]. destruct (equal_fold name n).
  - intros [= ->]. exists n. left.
  - intros E. destruct (IH E) as [n' Hn]. exists n'. by right.
Qed.
Lemma swe_struct {T} (fields : list (gostring * (tree -> T -> option T))) (w : T -> nat) : (forall n d, (n, d) ∈ fields -> sw d w) -> swe (store_struct fields) w.
Proof.
  intros Hf [] old new; cbn [store_struct]; try done; [intros [= <-]; cbn [tsize]; lia|].
  assert (K : forall ms a b, store_members fields ms a = Some b -> w b <= w a + 3 * list_sum (map (fun m => 2 + length m.1 + tsize m.2) ms)).
  { induction ms as [|[k v] ms IH]; intros a b; cbn [store_members map fst snd]; [intros [= <-]; lia|]. change (list_sum (?x :: ?y)) with (x + list_sum y).
    destruct (find_field fields (unquote 0 k)) as [store|] eqn:E.
    - apply find_field_in in E as [n Hn]. destruct (store v a) as [a'|] eqn:Ea; [|done]. apply (Hf _ _ Hn) in Ea. intros H%IH. lia.
    - intros H%IH. lia. }
  intros H%K. cbn [tsize]. lia.
Qed.
Lemma swe_sw {T} (store : tree -> T -> option T) w : swe store w -> sw store w.
Proof. intros H t old new E. apply H in E. lia. Qed.

Definition slw {T} (w : T -> nat) (s : slice T) : nat := sum w (sl_mem s) + 2 * sl_len s.

Lemma sw_slice {T} (zero : T) store (w : T -> nat) : w zero = 0 -> swe store w -> sw (store_slice zero store) (slw w).
Proof.
  intros Hz Hs [] old new; cbn [store_slice]; try done; [intros [= <-]; cbn; lia|].
  assert (K : forall l i s s', i <= sl_len s -> store_elements zero store i l s = Some s' -> slw w s' <= slw w s + 3 * list_sum (map tsize l)).
  { clear l old new. induction l as [|t l IH]; intros i s s' Hi; cbn [store_elements map].
    - intros [= <-]. destruct i; [cbn; lia|]. destruct (S i <? sl_len s) eqn:E; [|lia]. apply Nat.ltb_lt in E. unfold slw. cbn [sl_mem sl_len]. lia.
    - change (list_sum (?x :: ?y)) with (x + list_sum y).
      assert (G : sum w (sl_mem (grow_for zero s i)) <= sum w (sl_mem s) /\ i + 1 <= sl_len (grow_for zero s i) <= sl_len s + 1).
      { unfold grow_for. cbv zeta. destruct (length (sl_mem s) <=? i).
        - cbn [sl_len]. destruct (sl_len s <=? i) eqn:E; cbn [sl_mem sl_len]; rewrite sum_app, sum_replicate by done; pose proof (sum_take_le w (sl_len s) (sl_mem s));
            [apply Nat.leb_le in E|apply Nat.leb_gt in E]; lia.
        - destruct (sl_len s <=? i) eqn:E; cbn [sl_mem sl_len]; [apply Nat.leb_le in E|apply Nat.leb_gt in E]; lia. }
      set (s1 := grow_for zero s i) in *. destruct (store t (nth i (sl_mem s1) zero)) as [el|] eqn:E; [|done]. apply Hs in E.
      intros H%IH; [|cbn [sl_len]; lia]. pose proof (insert_lw zero w w i s1 el Hz) as Hx. rewrite !lw_same in Hx. unfold slw in *. cbn [sl_mem sl_len] in *. lia. }
  intros E. apply K in E; [|lia]. cbn [tsize]. lia.
Qed.

(* ---------- the types of jaeger.go ---------- *)

Definition tagw (t : jtag) : nat := length (jt_key t) + jvw (jt_value t).
Definition mspanw (s : mspan) : nat := length (ms_operation s) + slw tagw (ms_tags s).
Definition mdataw (d : mdata) : nat := slw mspanw (md_spans d).

Ltac fields H := repeat (apply elem_of_cons in H as [[= -> ->]|H]); [..|by apply elem_of_nil in H].
Lemma sw_tag : swe (store_struct tag_fields) tagw.
Proof.
  apply swe_struct. intros n d H. unfold tag_fields in H. fields H.
  - eapply sw_within; [apply sw_string|]. intros f t. unfold tagw. cbn [jt_key jt_value]. lia.
  - eapply sw_within; [apply sw_interface|]. intros f t. unfold tagw. cbn [jt_key jt_value]. lia.
Qed.
Lemma sw_span : swe (store_struct span_fields) mspanw.
Proof.
  apply swe_struct. intros n d H. unfold span_fields in H. fields H;
    try (eapply sw_within; [apply sw_zero|]; intros f t; unfold mspanw; cbn [ms_operation ms_tags]; lia).
  - eapply sw_within; [apply sw_string|]. intros f t. unfold mspanw. cbn [ms_operation ms_tags]. lia.
  - eapply sw_within; [apply (sw_slice zero_tag _ tagw eq_refl sw_tag)|]. intros f t. unfold mspanw. cbn [ms_operation ms_tags]. lia.
Qed.
Lemma sw_data : swe (store_struct data_fields) mdataw.
Proof.
  apply swe_struct. intros n d H. unfold data_fields in H. fields H.
  - eapply sw_within; [apply (sw_slice zero_mspan _ mspanw eq_refl sw_span)|]. intros f t. unfold mdataw. cbn [md_spans]. lia.
  - eapply sw_within; [apply sw_zero|]. intros f t. unfold mdataw. cbn [md_spans]. lia.
Qed.

Lemma span_own_fields s s' : s_name s = s_name s' -> s_tags s = s_tags s' -> span_own_size s = span_own_size s'.
Proof. unfold span_own_size. by intros -> ->. Qed.

Lemma jaeger_tags_size l : forall s k, let r := foldl jaeger_tag (s, k) l in
  s_name r.1 = s_name s /\ tags_size (s_tags r.1) <= tags_size (s_tags s) + sum tagw l + 2 * length l.
Proof.
  induction l as [|t l IH]; intros s k; cbv zeta; cbn [foldl sum length]; [split; [done|cbn [fst]; lia]|].
  assert (H : s_name (jaeger_tag (s, k) t).1 = s_name s /\ tags_size (s_tags (jaeger_tag (s, k) t).1) <= tags_size (s_tags s) + tagw t + 2).
  { unfold jaeger_tag, tagw. destruct (jt_value t) as [v|]; [|split; [done|cbn [fst]; lia]]. cbv zeta. cbn [fst snd jvw].
    destruct (decide (jt_key t = str "component")) as [E|_].
    - rewrite E. repeat case_decide; cbn [fst snd]; (split; [done|]); try lia. unfold add_tag. cbn [s_tags set_tags].
      pose proof (tags_size_insert (str "lc") v (s_tags s)). change (length (str "lc")) with 2 in *. change (length (str "component")) with 9. lia.
    - repeat case_decide; cbn [fst snd]; (split; [done|]); try lia. unfold add_tag. cbn [s_tags set_tags].
      pose proof (tags_size_insert (jt_key t) v (s_tags s)). lia. }
  destruct (jaeger_tag (s, k) t) as [s1 k1]. cbn [fst] in H. destruct (IH s1 k1) as [I1 I2]. destruct H as [H1 H2]. split; [congruence|lia].
Qed.

Lemma jaeger_own_size procs m : span_own_size (jaeger_to_span procs (view_span m)) <= mspanw m.
Proof.
  unfold jaeger_to_span. cbv zeta. cbn [view_span js_operation js_trace js_id js_process js_tags js_ts js_dur].
  set (s0 := set_service _ _). pose proof (jaeger_tags_size (sl_list (ms_tags m)) s0 []) as H. cbv zeta in H.
  destruct (foldl jaeger_tag (s0, []) (sl_list (ms_tags m))) as [s k]. cbn [fst] in H. destruct H as [H1 H2].
  assert (Ht : forall (c : bool) t s, span_own_size (if c then set_timings t s else s) = span_own_size s) by (by intros []).
  rewrite !Ht. assert (Hi : forall (c : bool) d s, span_own_size (if c then set_dur d s else s) = span_own_size s) by (by intros []).
  rewrite Hi. change (span_own_size (set_dur ?a ?b)) with (span_own_size b). change (span_own_size (set_ts ?a ?b)) with (span_own_size b).
  unfold span_own_size, add_tag. cbn [s_name s_tags set_tags]. rewrite H1. subst s0. cbn [set_service s_name s_tags new_span] in *. rewrite tags_size_empty in H2.
  change (str "protocolVersion") with tag_protocol_version. pose proof (tags_size_own tag_protocol_version (str "jaeger") (s_tags s)) as K.
  unfold mspanw, slw. unfold sl_list in H2. pose proof (sum_take_le tagw (sl_len (ms_tags m)) (sl_mem (ms_tags m))). pose proof (firstn_le_length (sl_len (ms_tags m)) (sl_mem (ms_tags m))).
  lia.
Qed.

Lemma own_size_app a b : spans_own_size (a ++ b) = spans_own_size a + spans_own_size b.
Proof. induction a; cbn [app spans_own_size]; lia. Qed.

Lemma data_own_size acc d : spans_own_size (foldl (fun acc js => acc ++ [jaeger_to_span (jd_procs (view_data d)) js]) acc (jd_spans (view_data d))) <= spans_own_size acc + mdataw d.
Proof.
  cbn [view_data jd_spans jd_procs]. unfold mdataw, slw.
  assert (K : forall l acc, spans_own_size (foldl (fun acc js => acc ++ [jaeger_to_span (md_procs d) js]) acc (map view_span l)) <= spans_own_size acc + sum mspanw l + 2 * length l).
  { induction l as [|m l IH]; intros a; cbn [map foldl sum length]; [lia|]. specialize (IH (a ++ [jaeger_to_span (md_procs d) (view_span m)])).
    rewrite own_size_app in IH. cbn [spans_own_size] in IH. pose proof (jaeger_own_size (md_procs d) m). lia. }
  specialize (K (sl_list (md_spans d)) acc). unfold sl_list in *. pose proof (sum_take_le mspanw (sl_len (md_spans d)) (sl_mem (md_spans d))).
  pose proof (firstn_le_length (sl_len (md_spans d)) (sl_mem (md_spans d))). lia.
Qed.

Lemma jaeger_size input spans : ParseJaeger (jaeger_body input) = Some spans -> spans_own_size spans <= 3 * length (concat (r_chunks input)).
Proof.
  unfold jaeger_body, json_decode. destruct (scan_value _ _ _) as [t rest| |] eqn:E; cbn [sthen]; [|done..].
  apply (proj1 (scan_size _)) in E. pose proof (skip_space_length (concat (r_chunks input))) as Hs. destruct (complete t rest (r_end input)); [|done].
  unfold decode_tree. destruct (store_struct object_fields t (Slice [] 0)) as [s|] eqn:Es; [|done]. cbn [ParseJaeger option_map]. intros [= <-].
  assert (Hw : slw mdataw s + 2 <= 0 + 3 * tsize t).
  { apply (swe_struct object_fields (slw mdataw)) in Es; [exact Es|]. intros n d H. unfold object_fields in H. fields H.
    apply (sw_slice zero_mdata _ mdataw eq_refl sw_data). }
  assert (K : forall l acc, spans_own_size (foldl (fun acc d => foldl (fun acc js => acc ++ [jaeger_to_span (jd_procs d) js]) acc (jd_spans d)) acc (map view_data l)) <= spans_own_size acc + sum mdataw l).
  { induction l as [|d l IH]; intros acc; cbn [map foldl sum]; [lia|]. etrans; [apply IH|]. pose proof (data_own_size acc d). lia. }
  specialize (K (sl_list s) []). cbn [spans_own_size] in K. unfold slw in Hw. unfold sl_list in K at 2. pose proof (sum_take_le mdataw (sl_len s) (sl_mem s)). lia.
Qed.

Lemma jaeger_services input spans : ParseJaeger (jaeger_body input) = Some spans -> Forall (fun s => length (s_service s) <= 3 * length (concat (r_chunks input))) spans.
Proof.
  intros H. destruct (jaeger_body input) as [data|] eqn:E; [|done]. apply jaeger_body_short in E. cbn [ParseJaeger option_map] in H. injection H as <-.
  set (P := fun s => length (s_service s) <= 3 * length (concat (r_chunks input))).
  assert (Hs : forall procs js, (forall k v, procs !! k = Some v -> length v <= 3 * length (concat (r_chunks input))) -> P (jaeger_to_span procs js)).
  { intros procs js Hp. unfold P. assert (Es : s_service (jaeger_to_span procs js) = default [] (procs !! js_process js)).
    { unfold jaeger_to_span. cbv zeta. set (s0 := set_service _ _).
      assert (Hf : forall l s k, s_service (foldl jaeger_tag (s, k) l).1 = s_service s).
      { induction l as [|t l IH]; intros s k; cbn [foldl]; [done|]. unfold jaeger_tag at 2. destruct (jt_value t); [|apply IH]. cbv zeta. repeat case_decide; cbn [fst snd]; rewrite IH; done. }
      specialize (Hf (js_tags js) s0 []). destruct (foldl jaeger_tag (s0, []) (js_tags js)) as [s k]. cbn [fst] in Hf.
      repeat match goal with |- context [if ?c then set_timings _ _ else _] => destruct c | |- context [if ?c then set_dur _ _ else _] => destruct c end; exact Hf. }
    rewrite Es. destruct (procs !! js_process js) as [v|] eqn:Ev; cbn [default]; [by eapply Hp|cbn; lia]. }
  clear -E Hs. assert (K : forall acc, Forall P acc -> Forall P (foldl (fun acc d => foldl (fun acc js => acc ++ [jaeger_to_span (jd_procs d) js]) acc (jd_spans d)) acc data)).
  { induction E as [|d data [_ Hd] _ IH]; intros acc Ha; cbn [foldl]; [done|]. apply IH. clear IH. revert acc Ha.
    generalize (jd_spans d) as l. induction l as [|js l IHl]; intros acc Ha; cbn [foldl]; [done|]. apply IHl. apply Forall_app. split; [done|]. constructor; [|constructor].
    apply Hs. intros k v Hk. by destruct (Hd k v Hk). }
  by apply K.
Qed.

Lemma http_jaeger_size env q body acts : n_jaeger env = jaeger_body -> q_endpoint q = EJaeger -> reads env q body -> handle env q = XDone acts ->
  spans_own_size (puts_of acts) <= 3 * length (concat (r_chunks body)) /\
  Forall (fun s => length (s_service s) <= 3 * length (concat (r_chunks body))) (puts_of acts).
Proof.
  intros En Hq Hr H. apply handle_shape in H as [(spans & body' & Hr' & Hp & _ & Ha)| ->]; [|cbn; split; [lia|constructor]].
  rewrite (puts_accepts _ _ Ha). rewrite (reads_same _ _ _ _ Hr' Hr), Hq in Hp. cbn [parser] in Hp. rewrite En in Hp. injection Hp as Hp.
  split; [by apply jaeger_size|by apply jaeger_services].
Qed.
