(** Concrete documents for C100. *)
From Verif Require Import Base SpanModel JsonModel CodecModel JsonSpec DocSpec JaegerModel HandlerModel HandlerSpec TreeModel FinishModel FinishSpec FinishProofs FinishWitness MaskWitness StdJsonModel StdJsonSpec StdWitness FormatSpec.

(* ---------- texts of values without escapes ---------- *)

Fixpoint sep (l : list bytes) : bytes := match l with [] => [] | [x] => x | x :: l' => x ++ 44 :: sep l' end.
Fixpoint render (v : json) : bytes :=
  match v with
  | JNull => str "null" | JTrue => str "true" | JFalse => str "false" | JWord l | JNum l => l
  | JStr s => 34 :: s ++ [34]
  | JArr l => 91 :: sep (map render l) ++ [93]
  | JObj l => 123 :: sep (map (fun m => 34 :: m.1 ++ 34 :: 58 :: render m.2) l) ++ [125]
  end.
Definition short_string (m : nat) (s : bytes) : bool := forallb plain_byte s && (length s <? m)%nat.
Fixpoint plain_json (m : nat) (v : json) : bool :=
  match v with
  | JNull | JTrue | JFalse => true
  | JWord _ => false
  | JNum l => forallb (fun c => (48 <=? c) && (c <=? 57)) l && negb (bool_decide (l = [])) && (length l <? m)%nat
  | JStr s => short_string m s
  | JArr l => forallb (plain_json m) l
  | JObj l => forallb (fun k => short_string m k.1 && plain_json m k.2) l
  end.

Lemma short_simple m s : short_string m s = true -> simple_string s s /\ (length s < m)%nat.
Proof.
  unfold short_string. intros (H & L)%andb_prop. split; [|by apply Nat.ltb_lt]. clear L. induction s as [|c s IH]; [constructor|]. cbn [forallb] in H. apply andb_prop in H as [Hc H].
  unfold plain_byte in Hc. apply ss_plain; [lia|lia|by apply IH].
Qed.
Lemma ws_nil : ws [].
Proof. constructor. Qed.

Definition rendered (m : nat) (v : json) : Prop := plain_json m v = true -> text m v (render v).
Lemma render_elements m l : Forall (rendered m) l -> forall v, rendered m v -> forallb (plain_json m) (v :: l) = true -> elements m (v :: l) (sep (map render (v :: l))).
Proof.
  induction 1 as [|v' l Hv' _ IH]; intros v Fv H; cbn [map sep forallb] in *; apply andb_prop in H as [Hv H].
  - pose proof (e_one m v [] (render v) [] ws_nil (Fv Hv) ws_nil) as X. cbn [app] in X. by rewrite app_nil_r in X.
  - apply (e_more m v [] (render v) [] (v' :: l) _ ws_nil (Fv Hv) ws_nil). by apply IH.
Qed.
Lemma render_members m l : Forall (fun k => rendered m k.2) l -> forall k v, rendered m v -> forallb (fun k => short_string m k.1 && plain_json m k.2) ((k, v) :: l) = true ->
  members m ((k, v) :: l) (sep (map (fun m => 34 :: m.1 ++ 34 :: 58 :: render m.2) ((k, v) :: l))).
Proof.
  induction 1 as [|[k' v'] l Hv' _ IH]; intros k v Fv H; cbn [map sep forallb fst snd] in *; apply andb_prop in H as [(Hk & Hv)%andb_prop H]; apply short_simple in Hk as [Hk1 Hk2].
  - pose proof (m_one m k k [] [] [] v (render v) [] ws_nil Hk1 Hk2 ws_nil ws_nil (Fv Hv) ws_nil) as X. cbn [app] in X. by rewrite app_nil_r in X.
  - specialize (IH k' v' Hv' H). pose proof (m_more m k k [] [] [] v (render v) [] ((k', v') :: l) _ ws_nil Hk1 Hk2 ws_nil ws_nil (Fv Hv) ws_nil IH) as X. cbn [app] in X.
    rewrite <- app_comm_cons, <- app_assoc. cbn [app]. exact X.
Qed.
Lemma render_text m : forall v, rendered m v.
Proof.
  unfold rendered. fix F 1. intros [| | |l|l|s|l|l]; cbn [plain_json render]; intros H.
  - constructor.
  - constructor.
  - constructor.
  - done.
  - apply andb_prop in H as [(H & Hn)%andb_prop Hl]. apply t_num; [|by apply Nat.ltb_lt]. exists [], l, [], []. split; [by rewrite app_nil_r|]. split; [by left|]. split; [|split; by left].
    split; [|by apply negb_true_iff, bool_decide_eq_false in Hn]. apply Forall_forall. intros c Hc. rewrite elem_of_list_In in Hc. rewrite forallb_forall in H. specialize (H c Hc). lia.
  - apply short_simple in H as [H1 H2]. by apply t_str.
  - assert (Fl : Forall (rendered m) l) by (clear H; induction l as [|v l IH]; constructor; [exact (F v)|exact IH]).
    destruct l as [|v l]; [by apply (t_arr_empty m [] ws_nil)|]. apply Forall_cons in Fl as [Fv Fl]. apply t_arr. by apply render_elements.
  - assert (Fl : Forall (fun k => rendered m k.2) l) by (clear H; induction l as [|[k v] l IH]; constructor; [exact (F v)|exact IH]).
    destruct l as [|[k v] l]; [by apply (t_obj_empty m [] ws_nil)|]. apply Forall_cons in Fl as [Fv Fl]. apply t_obj. by apply render_members.
Qed.

(* ---------- two reports ---------- *)

Definition buy : report := Report 31 7 (Some 5) (str "buy") (str "shop") Client 1000 70 [(str "http.method", str "GET")].
Definition sell : report := Report 44 7 (Some 31) (str "sell") (str "stock") Server 1020 30 [(str "item", str "tea"); (str "item", str "milk")].

Definition end_v (s : gostring) : json := JObj [(str "serviceName", JStr s); (str "port", JNum (str "80"))].
Definition common (r : report) (i start dur : gostring) : list (bytes * json) :=
  [(str "id", JStr i); (str "traceId", JStr (str "7")); (str "name", JStr (r_name r)); (str "timestamp", JNum start); (str "duration", JNum dur)].
Definition v2_doc : json :=
  JArr [ JObj ((str "shared", JFalse) :: (str "parentId", JStr (str "05")) :: (str "kind", JStr (str "CLIENT")) :: common buy (str "1f") (str "1000") (str "70") ++
           [(str "localEndpoint", end_v (str "shop")); (str "tags", JObj [(str "http.method", JStr (str "GET"))])]);
         JObj ((str "shared", JFalse) :: (str "parentId", JStr (str "1F")) :: (str "kind", JStr (str "SERVER")) :: common sell (str "2c") (str "1020") (str "30") ++
           [(str "localEndpoint", end_v (str "stock")); (str "tags", JObj [(str "item", JStr (str "tea")); (str "item", JStr (str "milk"))])]) ].
Definition ann (t what s : gostring) : json := JObj [(str "timestamp", JNum t); (str "value", JStr what); (str "endpoint", end_v s)].
Definition bin (k v s : gostring) : json := JObj [(str "key", JStr k); (str "value", JStr v); (str "endpoint", end_v s)].
Definition v1_doc : json :=
  JArr [ JObj ((str "debug", JTrue) :: (str "parentId", JStr (str "5")) :: common buy (str "1f") (str "1000") (str "70") ++
           [(str "annotations", JArr [ann (str "1000") (str "cs") (str "shop"); ann (str "1070") (str "cr") (str "shop")]);
            (str "binaryAnnotations", JArr [bin (str "http.method") (str "GET") (str "shop")])]);
         JObj ((str "debug", JTrue) :: (str "parentId", JStr (str "1f")) :: common sell (str "2c") (str "1020") (str "30") ++
           [(str "annotations", JArr [ann (str "1020") (str "sr") (str "stock"); ann (str "1050") (str "ss") (str "stock")]);
            (str "binaryAnnotations", JArr [bin (str "item") (str "tea") (str "stock"); bin (str "item") (str "milk") (str "stock")])]) ].
Definition jtag_v (k v : gostring) : json := JObj [(str "key", JStr k); (str "value", JStr v); (str "type", JStr (str "string"))].
Definition jspan_v (i p name start dur proc : gostring) (tags : list json) : json :=
  JObj [(str "traceID", JStr (str "7")); (str "spanID", JStr i); (str "operationName", JStr name);
        (str "references", JArr [JObj [(str "refType", JStr (str "CHILD_OF")); (str "spanID", JStr p); (str "traceID", JStr (str "7"))]]);
        (str "startTime", JNum start); (str "duration", JNum dur); (str "processID", JStr proc); (str "tags", JArr tags); (str "flags", JNum (str "1"))].
Definition spans_v : list json :=
  [ jspan_v (str "1f") (str "5") (str "buy") (str "1000") (str "70") (str "p1") [jtag_v (str "span.kind") (str "client"); jtag_v (str "http.method") (str "GET")];
    jspan_v (str "2c") (str "1f") (str "sell") (str "1020") (str "30") (str "p2") [jtag_v (str "span.kind") (str "server"); jtag_v (str "item") (str "tea"); jtag_v (str "item") (str "milk")] ].
Definition procs_v : list (bytes * json) := [(str "p1", JObj [(str "serviceName", JStr (str "shop"))]); (str "p2", JObj [(str "serviceName", JStr (str "stock"))])].
Definition data_v : json := JObj [(str "spans", JArr spans_v); (str "processes", JObj procs_v); (str "traceID", JStr (str "7"))].
Definition jaeger_doc : json := JObj [(str "data", JArr [data_v])].

Ltac not_known := unfold v1_known, v2_known, jaeger_known; let H := fresh in intros H; repeat (apply elem_of_cons in H as [H|H]; [by vm_compute in H|]); by apply elem_of_nil in H.
Lemma writes_id_text n s : id_text s = Some n -> writes_id n (JStr s).
Proof. intros E. by exists s. Qed.
Lemma writes_text n l : forallb (fun c => (48 <=? c) && (c <=? 57)) l && negb (bool_decide (l = [])) = true -> dec_value 0 l = n -> writes n (JNum l).
Proof.
  intros (H & Hn)%andb_prop E. exists l. split; [done|]. split; [|done]. split; [|by apply negb_true_iff, bool_decide_eq_false in Hn].
  apply Forall_forall. intros c Hc. rewrite elem_of_list_In in Hc. rewrite forallb_forall in H. specialize (H c Hc). lia.
Qed.
Lemma end_ok s : endpoint_of s (end_v s).
Proof. exists [(str "serviceName", JStr s); (str "port", JNum (str "80"))], [(str "port", JNum (str "80"))]. split; [done|]. split; [done|]. apply Forall_singleton. not_known. Qed.
Lemma ann_ok r t l what : writes t (JNum l) -> v1_annotation r t what (ann l what (r_service r)).
Proof.
  intros H. exists (JNum l), (end_v (r_service r)). split; [done|]. split; [apply end_ok|]. eexists _, []. split; [done|]. split; [by rewrite app_nil_r|]. constructor.
Qed.
Lemma bin_ok r k v : v1_binary r (k, v) (bin k v (r_service r)).
Proof. exists (end_v (r_service r)). split; [apply end_ok|]. eexists _, []. split; [done|]. split; [by rewrite app_nil_r|]. constructor. Qed.

Lemma v2_doc_ok : v2_reports [buy; sell] v2_doc.
Proof.
  eexists. split; [done|]. apply Forall2_cons. split; [|apply Forall2_cons; split; [|by apply Forall2_nil]].
  - exists (JStr (str "1f")), (JStr (str "7")), [(str "parentId", JStr (str "05"))], (JNum (str "1000")), (JNum (str "70")), (end_v (str "shop")).
    split; [by apply writes_id_text|]. split; [by apply writes_id_text|]. split; [eexists; split; [|reflexivity]; by apply writes_id_text|].
    split; [by apply writes_text|]. split; [by apply writes_text|]. split; [apply end_ok|].
    eexists _, [(str "shared", JFalse)]. split; [reflexivity|]. split; [apply (Permutation_app_comm [_])|]. apply Forall_singleton. not_known.
  - exists (JStr (str "2c")), (JStr (str "7")), [(str "parentId", JStr (str "1F"))], (JNum (str "1020")), (JNum (str "30")), (end_v (str "stock")).
    split; [by apply writes_id_text|]. split; [by apply writes_id_text|]. split; [eexists; split; [|reflexivity]; by apply writes_id_text|].
    split; [by apply writes_text|]. split; [by apply writes_text|]. split; [apply end_ok|].
    eexists _, [(str "shared", JFalse)]. split; [reflexivity|]. split; [apply (Permutation_app_comm [_])|]. apply Forall_singleton. not_known.
Qed.
Lemma v1_doc_ok : v1_reports [buy; sell] v1_doc.
Proof.
  eexists. split; [done|]. apply Forall2_cons. split; [|apply Forall2_cons; split; [|by apply Forall2_nil]].
  - exists (JStr (str "1f")), (JStr (str "7")), [(str "parentId", JStr (str "5"))], (JNum (str "1000")), (JNum (str "70")),
      [ann (str "1000") (str "cs") (str "shop"); ann (str "1070") (str "cr") (str "shop")], [bin (str "http.method") (str "GET") (str "shop")].
    split; [by apply writes_id_text|]. split; [by apply writes_id_text|]. split; [eexists; split; [|reflexivity]; by apply writes_id_text|].
    split; [by apply writes_text|]. split; [by apply writes_text|].
    split; [eexists _, _; split; [reflexivity|]; split; [apply (ann_ok buy)|apply (ann_ok buy)]; by apply writes_text|].
    split; [repeat (apply Forall2_cons; split; [apply (bin_ok buy)|]); by apply Forall2_nil|].
    eexists _, [(str "debug", JTrue)]. split; [reflexivity|]. split; [apply (Permutation_app_comm [_])|]. apply Forall_singleton. not_known.
  - exists (JStr (str "2c")), (JStr (str "7")), [(str "parentId", JStr (str "1f"))], (JNum (str "1020")), (JNum (str "30")),
      [ann (str "1020") (str "sr") (str "stock"); ann (str "1050") (str "ss") (str "stock")], [bin (str "item") (str "tea") (str "stock"); bin (str "item") (str "milk") (str "stock")].
    split; [by apply writes_id_text|]. split; [by apply writes_id_text|]. split; [eexists; split; [|reflexivity]; by apply writes_id_text|].
    split; [by apply writes_text|]. split; [by apply writes_text|].
    split; [eexists _, _; split; [reflexivity|]; split; [apply (ann_ok sell)|apply (ann_ok sell)]; by apply writes_text|].
    split; [repeat (apply Forall2_cons; split; [apply (bin_ok sell)|]); by apply Forall2_nil|].
    eexists _, [(str "debug", JTrue)]. split; [reflexivity|]. split; [apply (Permutation_app_comm [_])|]. apply Forall_singleton. not_known.
Qed.
Lemma jtag_ok k v : FormatSpec.jaeger_tag (k, v) (jtag_v k v).
Proof. eexists _, [(str "type", JStr (str "string"))]. split; [reflexivity|]. split; [reflexivity|]. apply Forall_singleton. not_known. Qed.
Lemma jaeger_doc_ok : jaeger_reports [buy; sell] jaeger_doc.
Proof.
  exists data_v, spans_v, procs_v, [(str "p1", str "shop"); (str "p2", str "stock")].
  split; [|split; [|split; [|eexists _, []; split; [reflexivity|]; split; [reflexivity|constructor]]]].
  3: { eexists _, [(str "traceID", JStr (str "7"))]. split; [reflexivity|]. split; [reflexivity|]. apply Forall_singleton. not_known. }
  - repeat (apply Forall2_cons; split; [split; [done|]; eexists _, []; split; [reflexivity|]; split; [reflexivity|constructor]|]). by apply Forall2_nil.
  - apply Forall2_cons. split; [|apply Forall2_cons; split; [|by apply Forall2_nil]].
    + exists (JStr (str "1f")), (JStr (str "7")), [JObj [(str "refType", JStr (str "CHILD_OF")); (str "spanID", JStr (str "5")); (str "traceID", JStr (str "7"))]], (JNum (str "1000")), (JNum (str "70")),
        (str "p1"), [jtag_v (str "span.kind") (str "client"); jtag_v (str "http.method") (str "GET")].
      split; [by apply writes_id_text|]. split; [by apply writes_id_text|]. split; [by apply writes_text|]. split; [by apply writes_text|]. split; [by vm_compute|].
      split; [eexists; split; [reflexivity|]; exists (JStr (str "5")); split; [by apply writes_id_text|]; eexists _, [(str "traceID", JStr (str "7"))]; split; [reflexivity|]; split; [reflexivity|]; apply Forall_singleton; not_known|].
      split; [repeat (apply Forall2_cons; split; [apply jtag_ok|]); by apply Forall2_nil|].
      eexists _, [(str "flags", JNum (str "1"))]. split; [reflexivity|]. split; [reflexivity|]. apply Forall_singleton. not_known.
    + exists (JStr (str "2c")), (JStr (str "7")), [JObj [(str "refType", JStr (str "CHILD_OF")); (str "spanID", JStr (str "1f")); (str "traceID", JStr (str "7"))]], (JNum (str "1020")), (JNum (str "30")),
        (str "p2"), [jtag_v (str "span.kind") (str "server"); jtag_v (str "item") (str "tea"); jtag_v (str "item") (str "milk")].
      split; [by apply writes_id_text|]. split; [by apply writes_id_text|]. split; [by apply writes_text|]. split; [by apply writes_text|]. split; [by vm_compute|].
      split; [eexists; split; [reflexivity|]; exists (JStr (str "1f")); split; [by apply writes_id_text|]; eexists _, [(str "traceID", JStr (str "7"))]; split; [reflexivity|]; split; [reflexivity|]; apply Forall_singleton; not_known|].
      split; [repeat (apply Forall2_cons; split; [apply jtag_ok|]); by apply Forall2_nil|].
      eexists _, [(str "flags", JNum (str "1"))]. split; [reflexivity|]. split; [reflexivity|]. apply Forall_singleton. not_known.
Qed.

(* ---------- where the format matters ---------- *)

(** Something that took no time. *)
Definition instant : report := Report 31 7 None (str "buy") (str "shop") Client 1000 0 [].
Definition instant_v2 : json :=
  JObj ((str "kind", JStr (str "CLIENT")) :: common instant (str "1f") (str "1000") (str "0") ++ [(str "localEndpoint", end_v (str "shop")); (str "tags", JObj [])]).
Definition instant_v1 : json :=
  JObj (common instant (str "1f") (str "1000") (str "0") ++
    [(str "annotations", JArr [ann (str "1000") (str "cs") (str "shop"); ann (str "1000") (str "cr") (str "shop")]); (str "binaryAnnotations", JArr [])]).
Lemma instant_differs : exists r v1 v2 s1 s2, r_dur r = 0 /\ v1_report r v1 /\ v2_report r v2 /\ v1_span v1 = Some s1 /\ v2_span v2 = Some s2 /\
  tCR (s_timings s1) = 1000000 /\ tCR (s_timings s2) = 2000000.
Proof.
  exists instant, instant_v1, instant_v2. eexists _, _. split; [done|]. split; [|split; [|split; [vm_compute; reflexivity|split; [vm_compute; reflexivity|done]]]].
  - exists (JStr (str "1f")), (JStr (str "7")), [], (JNum (str "1000")), (JNum (str "0")), [ann (str "1000") (str "cs") (str "shop"); ann (str "1000") (str "cr") (str "shop")], [].
    split; [by apply writes_id_text|]. split; [by apply writes_id_text|]. split; [done|]. split; [by apply writes_text|]. split; [by apply writes_text|].
    split; [eexists _, _; split; [reflexivity|]; split; [apply (ann_ok instant)|apply (ann_ok instant)]; by apply writes_text|]. split; [by apply Forall2_nil|].
    eexists _, []. split; [reflexivity|]. split; [by rewrite app_nil_r|constructor].
  - exists (JStr (str "1f")), (JStr (str "7")), [], (JNum (str "1000")), (JNum (str "0")), (end_v (str "shop")).
    split; [by apply writes_id_text|]. split; [by apply writes_id_text|]. split; [done|]. split; [by apply writes_text|]. split; [by apply writes_text|]. split; [apply end_ok|].
    eexists _, []. split; [reflexivity|]. split; [by rewrite app_nil_r|constructor].
Qed.

(** Something without tags that is not a call. *)
Definition quiet_work : report := Report 31 7 None (str "buy") (str "shop") Local 1000 5 [].
Definition quiet_v2 : json := JObj (common quiet_work (str "1f") (str "1000") (str "5") ++ [(str "localEndpoint", end_v (str "shop")); (str "tags", JObj [])]).
Definition quiet_v1 : json := JObj (common quiet_work (str "1f") (str "1000") (str "5") ++ [(str "annotations", JArr []); (str "binaryAnnotations", JArr [])]).
Lemma service_lost : exists r v1 v2 s1 s2, reasonable r /\ v1_report r v1 /\ v2_report r v2 /\ v1_span v1 = Some s1 /\ v2_span v2 = Some s2 /\
  s_service s1 = [] /\ s_service s2 = str "shop".
Proof.
  exists quiet_work, quiet_v1, quiet_v2. eexists _, _. split; [unfold reasonable, quiet_work; cbn [r_start r_dur]; p2; lia|]. split; [|split; [|split; [vm_compute; reflexivity|split; [vm_compute; reflexivity|done]]]].
  - exists (JStr (str "1f")), (JStr (str "7")), [], (JNum (str "1000")), (JNum (str "5")), [], [].
    split; [by apply writes_id_text|]. split; [by apply writes_id_text|]. split; [done|]. split; [by apply writes_text|]. split; [by apply writes_text|]. split; [done|]. split; [by apply Forall2_nil|].
    eexists _, []. split; [reflexivity|]. split; [by rewrite app_nil_r|constructor].
  - exists (JStr (str "1f")), (JStr (str "7")), [], (JNum (str "1000")), (JNum (str "5")), (end_v (str "shop")).
    split; [by apply writes_id_text|]. split; [by apply writes_id_text|]. split; [done|]. split; [by apply writes_text|]. split; [by apply writes_text|]. split; [apply end_ok|].
    eexists _, []. split; [reflexivity|]. split; [by rewrite app_nil_r|constructor].
Qed.

(** Two spans of a trace that have no parent. *)
Definition part (i : Z) : report := Report i 7 None (str "buy") (str "shop") Local 1000 5 [(str "k", str "v")].
Definition two_parts (f : report -> span) : list event := [ESpan map_to_list 0 0 (f (part 31)); ESpan map_to_list 0 0 (f (part 44)); ETick (keys_tick 20000000000)].
Lemma parts_valid f : (forall i, s_ts (f (part i)) = 1000000) -> Forall valid_event (two_parts f).
Proof.
  intros H. unfold two_parts. apply Forall_cons_2; [|apply Forall_cons_2; [|apply Forall_cons_2; [apply keys_valid|apply Forall_nil_2]]];
    (split; [apply map_order_list|rewrite H; unfold int64_ok; p2; lia]).
Qed.
Lemma roots_differ : exists a b k out, reasonable a /\ reasonable b /\ r_trace a = r_trace b /\ r_parent a = None /\ r_parent b = None /\
  let evs f := [ESpan map_to_list 0 0 (f a); ESpan map_to_list 0 0 (f b); ETick k] in
  let zipkin := evs (span_of 0 (str "json v2")) in
  let jaeger := evs (fun r => span_of (r_id r) (str "jaeger") r) in
  Forall valid_event zipkin /\ Forall valid_event jaeger /\
  LOut (r_trace a) (Emitted out) ∈ (run zipkin).2 /\ map s_id out = [44; 31; 0] /\ LOut (r_trace a) NoRoot ∈ (run jaeger).2.
Proof.
  exists (part 31), (part 44), (keys_tick 20000000000). eexists. split; [unfold reasonable, part; cbn [r_start r_dur]; p2; lia|]. split; [unfold reasonable, part; cbn [r_start r_dur]; p2; lia|].
  split; [done|]. split; [done|]. split; [done|]. cbn zeta. split; [by apply (parts_valid (span_of 0 (str "json v2")))|]. split; [by apply (parts_valid (fun r => span_of (r_id r) (str "jaeger") r))|].
  split; [vm_compute; repeat first [apply elem_of_list_here|apply elem_of_list_further]|]. split; [vm_compute; reflexivity|]. vm_compute. repeat first [apply elem_of_list_here|apply elem_of_list_further].
Qed.

Lemma both_reports : Forall reasonable [buy; sell] /\ Forall v1_can_tell [buy; sell] /\ Forall jaeger_can_tell [buy; sell] /\
  v2_reports [buy; sell] v2_doc /\ text 20 v2_doc (render v2_doc) /\ v1_reports [buy; sell] v1_doc /\ text 20 v1_doc (render v1_doc) /\
  jaeger_reports [buy; sell] jaeger_doc.
Proof.
  split; [repeat (apply Forall_cons_2; [unfold reasonable, buy, sell; cbn [r_start r_dur]; p2; lia|]); apply Forall_nil_2|].
  split; [repeat (apply Forall_cons_2; [done|]); apply Forall_nil_2|].
  split; [repeat (apply Forall_cons_2; [unfold jaeger_can_tell, buy, sell; cbn [r_tags]; repeat (apply Forall_cons_2; [done|]); apply Forall_nil_2|]); apply Forall_nil_2|].
  split; [apply v2_doc_ok|]. split; [apply render_text; by vm_compute|]. split; [apply v1_doc_ok|]. split; [apply render_text; by vm_compute|]. apply jaeger_doc_ok.
Qed.

Lemma small_double l : forallb (fun c => (48 <=? c) && (c <=? 57)) l && negb (bool_decide (l = [])) && (length l <? 100)%nat && (dec_value 0 l <? 2^64) = true -> doubles (JNum l).
Proof.
  intros (((H & Hn)%andb_prop & Hl)%andb_prop & Hd)%andb_prop. apply Nat.ltb_lt in Hl. apply Z.ltb_lt in Hd. apply db_num. split; [lia|].
  exists [], l, [], []. split; [by rewrite app_nil_r|]. split; [by left|].
  split; [split; [|by apply negb_true_iff, bool_decide_eq_false in Hn]; apply Forall_forall; intros c Hc; rewrite elem_of_list_In in Hc; rewrite forallb_forall in H; specialize (H c Hc); lia|].
  exists []. split; [by left|]. exists 0. split; [by left|]. rewrite app_nil_r. cbn [length Z.of_nat Z.max Z.opp Z.add]. change (10 ^ Z.max 0 0) with 1. change (10 ^ (0 + 0)) with 1. rewrite !Z.mul_1_r.
  eapply Z.lt_trans; [exact Hd|]. by vm_compute.
Qed.
Lemma jaeger_doc_good : exists t, begins_with (render jaeger_doc) t [] /\ ended t [] /\ end_visible t [] (EndEOF true) /\ means plain_ids t jaeger_doc /\ given_once jaeger_doc /\ doubles jaeger_doc.
Proof.
  destruct (plain_document (render jaeger_doc) ltac:(by vm_compute)) as [A B]. exists (doc_tree (render jaeger_doc)).
  assert (E : doc_value (render jaeger_doc) = jaeger_doc) by by vm_compute. rewrite E in B. split; [exact A|].
  split; [by vm_compute|]. split; [right; right; right; by exists true|]. split; [exact B|]. split.
  - unfold jaeger_doc, data_v, spans_v, procs_v, jspan_v, jtag_v. nothing_twice.
  - unfold jaeger_doc, data_v, spans_v, procs_v, jspan_v, jtag_v.
    repeat (first [apply small_double; by vm_compute|apply db_obj; repeat apply Forall_cons_2; try apply Forall_nil_2; cbn [snd]|apply db_arr; repeat apply Forall_cons_2; try apply Forall_nil_2|by apply db_other]).
Qed.
Lemma formats_same : let evs f := [ESpan map_to_list 0 0 (span_of 0 f sell); ESpan map_to_list 0 0 (span_of 0 f buy); ETick (keys_tick 20000000000); EClose] in
  Forall2 same_report (evs (str "json v1")) (evs (str "json v2")).
Proof.
  cbn zeta. apply Forall2_cons. split; [|apply Forall2_cons; split; [|apply Forall2_cons; split; [apply keys_same|apply Forall2_cons; split; [exact I|by apply Forall2_nil]]]];
    (split; [apply map_order_list|split; [apply map_order_list|split; [done|split; [done|]]]]; eexists _, _, _, _; split; reflexivity).
Qed.
