(** Concrete documents for C108. *)
From Verif Require Import Base SpanModel JsonModel CodecModel JsonSpec DocSpec ParseSpec PoolProofs JaegerModel HandlerModel HandlerSpec StdJsonModel StdJsonSpec StdWitness
  FormatSpec FormatWitness SwapSpec SwapProofs SwapJaeger.

Definition order_env : environment := Env 3000 (replicate 20 0) new_pool_entry (fun _ => None) jaeger_body.
Definition order_ask (ep : endpoint) (v : json) : request := Request ep (str "application/json") [] (Src [take 50 (render v); drop 50 (render v)] (EndEOF true)).

Lemma body_ok ep v : plain_json 20 v = true -> (forall rest, delimited v rest) -> (2 * length (render v) + 2 < 3000)%nat -> zipkin_body order_env (order_ask ep v) v.
Proof.
  intros Hp Hd Hl. exists 20%nat, (render v), [], [], [take 50 (render v); drop 50 (render v)], (EndEOF true).
  assert (E : concat [take 50 (render v); drop 50 (render v)] = render v) by (cbn [concat]; by rewrite app_nil_r, take_drop).
  split; [right; split; [discriminate|done]|]. split; [by apply render_text|]. split; [constructor|]. split; [apply Hd|]. rewrite E, app_nil_r.
  split; [done|]. unfold order_env. cbn [n_buf n_fuel]. rewrite replicate_length. split; [lia|]. split; [lia|]. split; [done|]. split; [cbn [length]; lia|lia].
Qed.

(* ---------- version 2 ---------- *)

Definition v2_members : list (bytes * json) :=
  (str "kind", JStr (str "CLIENT")) :: common buy (str "1f") (str "1000") (str "70") ++
  [(str "localEndpoint", end_v (str "shop")); (str "tags", JObj [(str "a", JStr (str "GET")); (str "b", JStr (str "x"))])].
Definition v2_one_way : json := JArr [JObj v2_members; JObj [(str "id", JStr (str "2c"))]].
Definition v2_other_way : json := JArr [JObj (rev v2_members); JObj [(str "id", JStr (str "2c"))]].
Lemma v2_pair : v2_request order_env (order_ask EV2 v2_one_way) v2_one_way /\ v2_request order_env (order_ask EV2 v2_other_way) v2_other_way /\ alike exactly v2_one_way v2_other_way /\
  handle order_env (order_ask EV2 v2_other_way) = XDone [
    Put (Span 31 0 7 (str "buy") (str "shop") 1000000 70000 (<[str "protocolVersion" := str "json v2"]> {[str "b" := str "x"; str "a" := str "GET"]}) (Timings 1000000 1070000 0 0));
    Put (Span 44 0 0 [] [] 0 1000000 {[str "protocolVersion" := str "json v2"]} (Timings 0 0 0 0)); Status 202].
Proof.
  split; [split; [done|]; apply body_ok; [by vm_compute|done|]; apply Nat.ltb_lt; by vm_compute|].
  split; [split; [done|]; apply body_ok; [by vm_compute|done|]; apply Nat.ltb_lt; by vm_compute|].
  split; [|by vm_compute]. apply al_arr. constructor; [|constructor; [apply al_same|constructor]].
  apply names_alike; [apply Permutation_rev|]. apply (bool_decide_eq_true_1 (NoDup _)). by vm_compute.
Qed.

(* ---------- version 1 ---------- *)

Definition v1_object (anns bas : list json) : list (bytes * json) :=
  common buy (str "1f") (str "1000") (str "70") ++ [(str "annotations", JArr anns); (str "binaryAnnotations", JArr bas)].
Definition cs_v : json := ann (str "1000") (str "cs") (str "shop").
Definition cr_v : json := ann (str "1070") (str "cr") (str "shop").
Definition a_v : json := bin (str "a") (str "GET") (str "shop").
Definition b_v : json := bin (str "b") (str "x") (str "shop").
Definition v1_one_way : list json := [JObj (v1_object [cs_v; cr_v] [a_v; b_v]); JObj [(str "id", JStr (str "2c"))]].
Definition v1_other_way : list json := [JObj (rev (v1_object [cr_v; cs_v] [b_v; a_v])); JObj [(str "id", JStr (str "2c"))]].
Ltac by_deciding := match goal with |- ?P => refine (bool_decide_eq_true_1 P _) end; by vm_compute.
Lemma one_name_singleton s l : Forall (fun x => x = s) l -> one_name l.
Proof. rewrite Forall_forall. intros H x y Hx Hy _ _. by rewrite (H x Hx), (H y Hy). Qed.
Lemma v1_pair : v1_request order_env (order_ask EV1 (JArr v1_one_way)) (JArr v1_one_way) /\ v1_request order_env (order_ask EV1 (JArr v1_other_way)) (JArr v1_other_way) /\
  Forall2 v1_alike v1_one_way v1_other_way /\
  handle order_env (order_ask EV1 (JArr v1_other_way)) = XDone [
    Put (Span 31 0 7 (str "buy") (str "shop") 1000000 70000 (<[str "protocolVersion" := str "json v1"]> {[str "a" := str "GET"; str "b" := str "x"]}) (Timings 1000000 1070000 0 0));
    Put (Span 44 0 0 [] [] 0 1000000 {[str "protocolVersion" := str "json v1"]} (Timings 0 0 0 0)); Status 202].
Proof.
  assert (R : forall vs, plain_json 20 (JArr vs) = true -> (2 * length (render (JArr vs)) + 2 <? 3000)%nat = true ->
    forallb (fun v => match v with JObj ms => (length (all_values (str "annotations") ms) <=? 1)%nat && (length (all_values (str "binaryAnnotations") ms) <=? 1)%nat | _ => true end) vs = true ->
    v1_request order_env (order_ask EV1 (JArr vs)) (JArr vs)).
  { intros vs H1 H2 H3. split; [done|]. split; [by exists [], []|]. split; [apply once_new|]. split; [apply body_ok; [done|done|by apply Nat.ltb_lt]|].
    intros vs' [= <-]. apply Forall_forall. intros v Hv. rewrite elem_of_list_In in Hv. rewrite forallb_forall in H3. specialize (H3 v Hv). destruct v; try done.
    apply andb_prop in H3 as [A B]. apply Nat.leb_le in A, B. by split. }
  split; [apply R; by vm_compute|]. split; [apply R; by vm_compute|]. split; [|by vm_compute].
  constructor; [|constructor; [apply v1_members, al_same|constructor]].
  apply (v1_then _ (JObj (v1_object [cr_v; cs_v] [a_v; b_v]))); [|apply (v1_then _ (JObj (v1_object [cr_v; cs_v] [b_v; a_v])))].
  - apply (v1_events [cs_v; cr_v] [cr_v; cs_v]).
    + exists (str "annotations"), (common buy (str "1f") (str "1000") (str "70")), [(str "binaryAnnotations", JArr [a_v; b_v])]. split; [done|]. split; [done|]. split; [done|]. by vm_compute.
    + split; [constructor|]. split; [cbn; lia|]. intros l E. vm_compute in E. injection E as <-. split; [by_deciding|]. apply (one_name_singleton (str "shop")). by_deciding.
  - apply (v1_binaries [a_v; b_v] [b_v; a_v]).
    + exists (str "binaryAnnotations"), (common buy (str "1f") (str "1000") (str "70") ++ [(str "annotations", JArr [cr_v; cs_v])]), []. split; [done|]. split; [done|]. split; [done|]. by vm_compute.
    + split; [constructor|]. intros l E. vm_compute in E. injection E as <-. split; [by_deciding|]. apply (one_name_singleton (str "shop")). by_deciding.
  - apply v1_members, names_alike; [apply Permutation_rev|]. by_deciding.
Qed.

(* ---------- Jaeger ---------- *)

Definition jaeger_spans (tags : list json) (refs : list json) : list json :=
  [JObj [(str "spanID", JStr (str "1f")); (str "traceID", JStr (str "7")); (str "References", JArr refs); (str "tags", JArr tags)]].
Definition kind_t : json := jtag_v (str "span.kind") (str "client").
Definition lc_t : json := jtag_v (str "component") (str "net").
Definition other_t : json := JObj [(str "key", JStr (str "lc")); (str "value", JTrue)].
Definition child_r : json := JObj [(str "refType", JStr (str "CHILD_OF")); (str "spanID", JStr (str "5"))].
Definition follows_r : json := JObj [(str "refType", JStr (str "FOLLOWS_FROM")); (str "spanID", JStr (str "6"))].
Definition jaeger_with (spans : list json) : json := JObj [(str "data", JArr [JObj [(str "spans", JArr spans)]])].
Definition jaeger_one_way : json := jaeger_with (jaeger_spans [kind_t; lc_t; other_t] [child_r; follows_r]).
Definition jaeger_other_way : json := jaeger_with (jaeger_spans [other_t; lc_t; kind_t] [follows_r; child_r]).
Lemma jaeger_ok v : (match scan_value (2 * length (render v) + 2) 0 (skip_space (render v)) with Scanned t [] => plain_tree t | _ => false end) = true -> doc_value (render v) = v ->
  given_once v -> doubles v -> jaeger_request order_env (order_ask EJaeger v) v.
Proof.
  intros H Hv Hg Hd. destruct (plain_document (render v) H) as [A B]. rewrite Hv in B. split; [done|]. split; [done|].
  exists [take 50 (render v); drop 50 (render v)], (EndEOF true), (doc_tree (render v)), []. split; [right; split; [discriminate|done]|].
  split; [cbn [concat]; rewrite app_nil_r, take_drop; exact A|]. split; [by destruct (doc_tree (render v))|]. split; [right; right; right; by exists true|]. by split.
Qed.
Lemma jaeger_pair : jaeger_request order_env (order_ask EJaeger jaeger_one_way) jaeger_one_way /\ jaeger_request order_env (order_ask EJaeger jaeger_other_way) jaeger_other_way /\
  jaeger_docs jaeger_one_way jaeger_other_way /\
  handle order_env (order_ask EJaeger jaeger_other_way) = XDone [
    Put (Span 31 5 7 [] [] 0 1000000 (<[str "protocolVersion" := str "jaeger"]> {[str "lc" := str "net"]}) (Timings 0 1000000 0 0)); Status 202].
Proof.
  split; [apply jaeger_ok; [by vm_compute|by vm_compute|..]; unfold jaeger_one_way, jaeger_with, jaeger_spans, kind_t, lc_t, other_t, child_r, follows_r, jtag_v; [nothing_twice|no_numbers]|].
  split; [apply jaeger_ok; [by vm_compute|by vm_compute|..]; unfold jaeger_other_way, jaeger_with, jaeger_spans, kind_t, lc_t, other_t, child_r, follows_r, jtag_v; [nothing_twice|no_numbers]|].
  split; [|by vm_compute].
  assert (C : forall x x', jaeger_alike x x' -> jaeger_docs (jaeger_with [x]) (jaeger_with [x'])).
  { intros x x' H. apply (jd_span _ _ [] [] (JObj [(str "spans", JArr [x])]) (JObj [(str "spans", JArr [x'])]) [] [] x x'); [| |done].
    - exists (str "data"), [], []. repeat (split; [done|]). done.
    - exists (str "spans"), [], []. repeat (split; [done|]). done. }
  apply (jd_then _ (jaeger_with (jaeger_spans [other_t; lc_t; kind_t] [child_r; follows_r]))).
  - apply C. apply (ja_tags [kind_t; lc_t; other_t] [other_t; lc_t; kind_t]).
    + exists (str "tags"), [(str "spanID", JStr (str "1f")); (str "traceID", JStr (str "7")); (str "References", JArr [child_r; follows_r])], []. split; [done|]. split; [done|]. split; [done|]. by vm_compute.
    + split; [apply (Permutation_rev [kind_t; lc_t; other_t])|]. intros l E. vm_compute in E. injection E as <-. by_deciding.
  - apply C. apply (ja_refs [child_r; follows_r] [follows_r; child_r]).
    + exists (str "References"), [(str "spanID", JStr (str "1f")); (str "traceID", JStr (str "7"))], [(str "tags", JArr [other_t; lc_t; kind_t])]. split; [done|]. split; [done|]. split; [done|]. by vm_compute.
    + split; [constructor|]. intros l E. vm_compute in E. injection E as <-. vm_compute. lia.
Qed.

(* ---------- what the order does change ---------- *)

(** Four annotations are read. *)
Definition event (t what : gostring) : json := ann t what (str "shop").
Lemma fifth_lost : exists a a' v v' l s s', other_list exactly (str "annotations") a a' v v' /\ a ≡ₚ a' /\
  traverse annotation a = Some l /\ NoDup (map (fun x => x.1.2) (List.filter timed l)) /\ one_name (map snd (List.filter timed l)) /\
  v1_span v = Some s /\ v1_span v' = Some s' /\ tCR (s_timings s) = 1070000 /\ tCR (s_timings s') = 0.
Proof.
  pose (a := [event (str "1000") (str "cs"); event (str "1070") (str "cr"); event (str "1010") (str "ws"); event (str "1020") (str "wr"); event (str "1030") (str "x")]).
  pose (a' := [event (str "1000") (str "cs"); event (str "1010") (str "ws"); event (str "1020") (str "wr"); event (str "1030") (str "x"); event (str "1070") (str "cr")]).
  exists a, a', (JObj [(str "annotations", JArr a)]), (JObj [(str "annotations", JArr a')]). eexists _, _, _.
  split; [exists (str "annotations"), [], []; repeat (split; [done|]); done|]. split; [apply perm_skip; exact (Permutation_app_comm [event (str "1070") (str "cr")] [event (str "1010") (str "ws"); event (str "1020") (str "wr"); event (str "1030") (str "x")])|].
  split; [by vm_compute|]. split; [by_deciding|]. split; [apply (one_name_singleton (str "shop")); by_deciding|].
  split; [by vm_compute|]. split; [by vm_compute|]. split; by vm_compute.
Qed.
(** The service of the first annotation is the service of the span. *)
Lemma service_first : exists a a' v v' l s s', other_list exactly (str "annotations") a a' v v' /\ a ≡ₚ a' /\ (length a <= 4)%nat /\
  traverse annotation a = Some l /\ NoDup (map (fun x => x.1.2) (List.filter timed l)) /\
  v1_span v = Some s /\ v1_span v' = Some s' /\ s_service s = str "shop" /\ s_service s' = str "stock".
Proof.
  pose (a := [ann (str "1000") (str "cs") (str "shop"); ann (str "1010") (str "sr") (str "stock")]).
  pose (a' := [ann (str "1010") (str "sr") (str "stock"); ann (str "1000") (str "cs") (str "shop")]).
  exists a, a', (JObj [(str "annotations", JArr a)]), (JObj [(str "annotations", JArr a')]). eexists _, _, _.
  split; [exists (str "annotations"), [], []; repeat (split; [done|]); done|]. split; [constructor|]. split; [cbn; lia|].
  split; [by vm_compute|]. split; [by_deciding|]. split; [by vm_compute|]. split; [by vm_compute|]. split; by vm_compute.
Qed.
(** The last of several parents is the parent. *)
Lemma parent_last : exists a a' v v' j j', other_list fold_case (str "references") a a' v v' /\ a ≡ₚ a' /\
  jaeger_span_of v = Some j /\ jaeger_span_of v' = Some j' /\ s_parent (jaeger_to_span ∅ j) = 6 /\ s_parent (jaeger_to_span ∅ j') = 5.
Proof.
  pose (p i := JObj [(str "refType", JStr (str "CHILD_OF")); (str "spanID", JStr i)]).
  exists [p (str "5"); p (str "6")], [p (str "6"); p (str "5")], (JObj [(str "references", JArr [p (str "5"); p (str "6")])]), (JObj [(str "references", JArr [p (str "6"); p (str "5")])]). eexists _, _.
  split; [exists (str "references"), [], []; repeat (split; [done|]); done|]. split; [constructor|]. split; [by vm_compute|]. split; [by vm_compute|]. split; by vm_compute.
Qed.
