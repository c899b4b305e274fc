(** Headers: names without regard to case, what the wrapper for compressed bodies does, what answers carry. *)
From Verif Require Import Base SpanModel JsonModel CodecModel JaegerModel HandlerModel TextModel HeaderModel HeaderSpec.

Lemma upper_lower c : upper_byte (lower_byte c) = upper_byte c.
Proof. unfold upper_byte, lower_byte. destruct ((65 <=? c) && (c <=? 90)) eqn:E; [|done]. destruct ((97 <=? c + 32) && _) eqn:E2, ((97 <=? c) && _) eqn:E3; lia. Qed.
Lemma lower_upper c : lower_byte (upper_byte c) = lower_byte c.
Proof. unfold upper_byte, lower_byte. destruct ((97 <=? c) && (c <=? 122)) eqn:E; [|done]. destruct ((65 <=? c - 32) && _) eqn:E2, ((65 <=? c) && _) eqn:E3; lia. Qed.
Lemma lower_lower c : lower_byte (lower_byte c) = lower_byte c.
Proof. unfold lower_byte. destruct ((65 <=? c) && (c <=? 90)) eqn:E; [|by rewrite E]. destruct ((65 <=? c + 32) && _) eqn:E2; lia. Qed.

Lemma canonical_lower : forall name u, canonical_from u (map lower_byte name) = canonical_from u name.
Proof. induction name as [|c name IH]; intros u; cbn; [done|]. destruct u; [rewrite upper_lower|rewrite lower_lower]; f_equal; apply IH. Qed.
Lemma lower_canonical : forall name u, map lower_byte (canonical_from u name) = map lower_byte name.
Proof. induction name as [|c name IH]; intros u; cbn; [done|]. rewrite IH. f_equal. destruct u; [apply lower_upper|apply lower_lower]. Qed.
Lemma canonical_same a b : canonical a = canonical b <-> same_name a b.
Proof.
  unfold canonical, same_name. split; intros H.
  - by rewrite <- (lower_canonical a true), <- (lower_canonical b true), H.
  - by rewrite <- (canonical_lower a true), <- (canonical_lower b true), H.
Qed.

Definition some_of {A} (l : list A) : option (list A) := match l with [] => None | _ => Some l end.
Lemma some_of_app {A} (l l' : list A) : default [] (some_of l) ++ l' = l ++ l'.
Proof. by destruct l. Qed.
Lemma read_lookup fields k : read_fields fields !! k = some_of (map snd (filter (fun f => canonical f.1 = k) fields)).
Proof.
  induction fields as [|f fields IH] using rev_ind; [done|]. unfold read_fields in *. rewrite foldl_app. cbn [foldl].
  rewrite filter_app, filter_cons, filter_nil, map_app. destruct (decide (canonical f.1 = k)) as [<-|Hk].
  - rewrite lookup_insert, IH, some_of_app. cbn [map]. by destruct (map snd _).
  - rewrite lookup_insert_ne by done. rewrite IH. cbn [map]. by rewrite app_nil_r.
Qed.
Lemma values_lookup n fields : read_fields fields !! canonical n = some_of (values_of n fields).
Proof. rewrite read_lookup. unfold values_of. do 2 f_equal. apply list_filter_iff. intros f. apply canonical_same. Qed.
Lemma get_fields n fields : header_get n (read_fields fields) = default [] (head (values_of n fields)).
Proof. unfold header_get. rewrite values_lookup. by destruct (values_of n fields). Qed.

Lemma read_ext fields fields' : (forall n, values_of n fields = values_of n fields') -> read_fields fields = read_fields fields'.
Proof.
  intros H. apply map_eq. intros k.
  destruct (decide (Exists (fun f => canonical f.1 = k) (fields ++ fields'))) as [He|He].
  - apply Exists_exists in He as (f & _ & <-). rewrite !values_lookup. by rewrite H.
  - assert (K : forall fs, (forall f, f ∈ fs -> f ∈ fields ++ fields') -> filter (fun f : gostring * gostring => canonical f.1 = k) fs = []).
    { intros fs Hfs. destruct (filter _ fs) as [|f l] eqn:E; [done|]. exfalso. apply He, Exists_exists. exists f.
      assert (Hf : f ∈ filter (fun f : gostring * gostring => canonical f.1 = k) fs) by (rewrite E; left).
      apply elem_of_list_filter in Hf as [? ?]. auto. }
    rewrite !read_lookup, !K; [done| |]; intros f Hf; apply elem_of_app; auto.
Qed.

Lemma filter_none {A} (P : A -> Prop) `{forall x, Decision (P x)} l : (forall x, ~ P x) -> filter P l = [].
Proof. intros HP. induction l as [|x l IH]; [done|]. rewrite filter_cons, decide_False by apply HP. done. Qed.
Lemma del_fields a b fields : header_del a (header_del b (read_fields fields)) = read_fields (without [b; a] fields).
Proof.
  apply map_eq. intros k. unfold header_del. rewrite read_lookup. unfold without. rewrite list_filter_filter.
  destruct (decide (canonical a = k)) as [<-|Ha]; [|destruct (decide (canonical b = k)) as [<-|Hb]].
  - rewrite lookup_delete. replace (filter _ fields) with (@nil (gostring * gostring)); [done|]. symmetry.
    apply filter_none. intros f [H1 H2]. apply H2. right. left. by apply canonical_same.
  - rewrite lookup_delete_ne by done. rewrite lookup_delete. replace (filter _ fields) with (@nil (gostring * gostring)); [done|]. symmetry.
    apply filter_none. intros f [H1 H2]. apply H2. left. by apply canonical_same.
  - rewrite !lookup_delete_ne by done. rewrite read_lookup. do 2 f_equal. apply list_filter_iff. intros f. split; [|tauto]. intros H. split; [done|].
    intros He. inversion He as [? ? Hs|? ? He2]; subst; [apply canonical_same in Hs; congruence|]. inversion He2 as [? ? Hs|? ? He3]; subst; [apply canonical_same in Hs; congruence|]. inversion He3.
Qed.

Lemma gzip_sees gunzip text inner method path fields body :
  (~ says_gzip fields -> gzip_handler gunzip text inner (sent method path fields body) = inner (sent method path fields body)) /\
  (forall b, says_gzip fields -> gunzip body = Some b ->
    gzip_handler gunzip text inner (sent method path fields body) =
    inner (sent method path (without [str "content-encoding"; str "content-length"] fields) b)) /\
  (says_gzip fields -> gunzip body = None ->
    exists r, gzip_handler gunzip text inner (sent method path fields body) = XDone r /\ hr_puts r = [] /\ hr_status r = 400 /\ hr_body r = text body ++ [10]).
Proof.
  unfold gzip_handler, sent, says_gzip. cbn [hq_header hq_body hq_method hq_path]. rewrite get_fields.
  assert (Hs : same_name (str "Content-Encoding") (str "content-encoding")) by done.
  assert (Hv : values_of (str "Content-Encoding") fields = values_of (str "content-encoding") fields).
  { unfold values_of. f_equal. }
  rewrite Hv. split; [|split].
  - intros Hn. rewrite decide_False; [done|]. intros He. apply Hn. destruct (head _); cbn in He; [by subst|done].
  - intros b Hg Hb. rewrite Hg. cbn [default from_option]. rewrite decide_True by done. rewrite Hb.
    change (header_del (str "Content-Length") (header_del (str "Content-Encoding") (read_fields fields))) with
      (header_del (str "content-length") (header_del (str "content-encoding") (read_fields fields))).
    by rewrite del_fields.
  - intros Hg Hb. rewrite Hg. cbn [default from_option]. rewrite decide_True by done. rewrite Hb. eexists. split; [done|]. done.
Qed.

Lemma gzip_once gunzip text inner q : gzip_handler gunzip text (gzip_handler gunzip text inner) q = gzip_handler gunzip text inner q.
Proof.
  unfold gzip_handler. destruct (decide (header_get (str "Content-Encoding") (hq_header q) = str "gzip")) as [H|H]; [|done].
  destruct (gunzip (hq_body q)) as [b|]; [|done]. cbn [hq_header hq_body hq_method hq_path]. rewrite decide_False; [done|].
  unfold header_get, header_del. rewrite lookup_delete_ne by done. rewrite lookup_delete. done.
Qed.

(** Answers without headers are those of [TextModel]. *)
Lemma xmap_xmap {A B C} (f : A -> B) (g : B -> C) r : xmap g (xmap f r) = xmap (fun a => g (f a)) r.
Proof. by destruct r. Qed.
Lemma xmap_eq {A B} (f g : A -> B) r : (forall a, f a = g a) -> xmap f r = xmap g r.
Proof. intros H. destruct r; cbn; [by rewrite H|done|done]. Qed.
Lemma spans_plain lib env close ep q body enc :
  xmap plain_reply (spans_handler lib env close ep (HRequest (hq_method q) (hq_path q) (hq_header q) body)) =
  t_handle_spans lib env (Request ep (header_get (str "Content-Type") (hq_header q)) enc (hq_body q)) body.
Proof.
  unfold spans_handler, t_handle_spans. cbn [q_endpoint q_type hq_header hq_body].
  assert (K : forall h r, plain_reply (header_answer h r) = t_answer r) by (by intros h []).
  destruct ep.
  - destruct (contains _ _); [rewrite xmap_xmap; by apply xmap_eq|done].
  - rewrite xmap_xmap. by apply xmap_eq.
  - rewrite xmap_xmap. by apply xmap_eq.
Qed.
Lemma serve_plain lib env close other q ep : route q = Some ep ->
  xmap plain_reply (serve lib env close other q) = t_handle lib env (plain_request ep q).
Proof.
  intros Hr. unfold serve, gzip_handler, t_handle, plain_request. cbn [q_encoding q_body].
  destruct (decide _) as [Hg|Hg].
  - destruct (n_gunzip env (hq_body q)) as [b|]; [|done]. unfold router.
    assert (Hr2 : forall h b', route (HRequest (hq_method q) (hq_path q) h b') = Some ep) by done. rewrite Hr2.
    pose proof (spans_plain lib env close ep (HRequest (hq_method q) (hq_path q) (header_del (str "Content-Length") (header_del (str "Content-Encoding") (hq_header q))) (hq_body q)) b
      (header_get (str "Content-Encoding") (hq_header q))) as H.
    cbn [hq_header hq_method hq_path hq_body] in H. rewrite H. do 2 f_equal. unfold header_get, header_del. rewrite !lookup_delete_ne by done. done.
  - unfold router. rewrite Hr. destruct q as [m p h b]. exact (spans_plain lib env close ep (HRequest m p h b) b _).
Qed.

(** The fields of an answer. *)
Lemma error_fields text h n v : h !! str "Content-Type" = None -> h !! str "X-Content-Type-Options" = None ->
  (hr_header (header_error text h) !! n = Some v <-> h !! n = Some v \/ (n, v) ∈ text_fields).
Proof.
  intros H1 H2. unfold header_error, header_set. cbn [hr_header].
  change (canonical (str "X-Content-Type-Options")) with (str "X-Content-Type-Options"). change (canonical (str "Content-Type")) with (str "Content-Type").
  unfold text_fields. rewrite !elem_of_cons, elem_of_nil.
  destruct (decide (n = str "X-Content-Type-Options")) as [->|N1]; [rewrite lookup_insert, H2; split; [intros [= <-]; auto|intros [?|[[=]|[[= ->]|[]]]]; done]|].
  rewrite lookup_insert_ne by done.
  destruct (decide (n = str "Content-Type")) as [->|N2]; [rewrite lookup_insert, H1; split; [intros [= <-]; auto|intros [?|[[= ->]|[[=]|[]]]]; done]|].
  rewrite lookup_insert_ne by done. split; [auto|]. intros [?|[[=]|[[=]|[]]]]; done.
Qed.
Lemma serve_fields lib env close other q ep r : route q = Some ep -> serve lib env close other q = XDone r -> forall n v,
  hr_header r !! n = Some v <->
    (n = str "Connection" /\ v = [str "close"] /\ ep = EV1 /\ close = true /\
     ~ (header_get (str "Content-Encoding") (hq_header q) = str "gzip" /\ n_gunzip env (hq_body q) = None)) \/
    (hr_status r = 400 /\ (n, v) ∈ text_fields).
Proof.
  intros Hr Hs n v. unfold serve, gzip_handler in Hs.
  assert (Hin : forall h b, ~ (header_get (str "Content-Encoding") (hq_header q) = str "gzip" /\ n_gunzip env (hq_body q) = None) ->
    router lib env close other (HRequest (hq_method q) (hq_path q) h b) = XDone r ->
    hr_header r !! n = Some v <->
    (n = str "Connection" /\ v = [str "close"] /\ ep = EV1 /\ close = true /\
     ~ (header_get (str "Content-Encoding") (hq_header q) = str "gzip" /\ n_gunzip env (hq_body q) = None)) \/
    (hr_status r = 400 /\ (n, v) ∈ text_fields)).
  { intros h b Hok. unfold router. replace (route (HRequest (hq_method q) (hq_path q) h b)) with (Some ep) by (by rewrite <- Hr).
    assert (Ha : forall hd x, hd !! str "Content-Type" = None -> hd !! str "X-Content-Type-Options" = None ->
      hr_header (header_answer hd x) !! n = Some v <-> hd !! n = Some v \/ hr_status (header_answer hd x) = 400 /\ (n, v) ∈ text_fields).
    { intros hd [sp|m] N1 N2; cbn [header_answer hr_header hr_status]; [split; [auto|intros [?|[? _]]; done]|]. rewrite error_fields by done. naive_solver. }
    assert (He : forall x, ep <> EV1 -> r = header_answer ∅ x -> hr_header r !! n = Some v <->
      (n = str "Connection" /\ v = [str "close"] /\ ep = EV1 /\ close = true /\
       ~ (header_get (str "Content-Encoding") (hq_header q) = str "gzip" /\ n_gunzip env (hq_body q) = None)) \/
      (hr_status r = 400 /\ (n, v) ∈ text_fields)).
    { intros x Hep ->. rewrite Ha by apply lookup_empty. rewrite lookup_empty. naive_solver. }
    unfold spans_handler. destruct ep.
    - set (hd := if close then _ else _).
      assert (Hd : hd !! str "Content-Type" = None /\ hd !! str "X-Content-Type-Options" = None /\ (hd !! n = Some v <-> n = str "Connection" /\ v = [str "close"] /\ close = true)).
      { unfold hd. destruct close; [|rewrite !lookup_empty; naive_solver]. unfold header_set. change (canonical (str "Connection")) with (str "Connection").
        rewrite !(lookup_insert_ne _ (str "Connection") (str "Content-Type")), !(lookup_insert_ne _ (str "Connection") (str "X-Content-Type-Options")) by done. rewrite !lookup_empty.
        split; [done|]. split; [done|]. destruct (decide (n = str "Connection")) as [->|N]; [rewrite lookup_insert; naive_solver|]. rewrite lookup_insert_ne by done. rewrite lookup_empty. naive_solver. }
      destruct Hd as (N1 & N2 & Hd). destruct (contains _ _).
      + destruct (t_parser lib env EV1 _) as [x| |]; cbn [xmap]; intros [= <-]. rewrite Ha by done. rewrite Hd. naive_solver.
      + intros [= <-]. rewrite error_fields by done. rewrite Hd. cbn [hr_status header_error]. naive_solver.
    - destruct (t_parser lib env EV2 _) as [x| |]; cbn [xmap]; intros [= <-]. by eapply He.
    - destruct (t_parser lib env EJaeger _) as [x| |]; cbn [xmap]; intros [= <-]. by eapply He. }
  destruct (decide _) as [Hg|Hg].
  - destruct (n_gunzip env (hq_body q)) as [b|] eqn:Eb.
    + eapply Hin; [naive_solver|exact Hs].
    + injection Hs as <-. rewrite error_fields by apply lookup_empty. rewrite lookup_empty. cbn [hr_status header_error]. naive_solver.
  - destruct q as [m p h b]. eapply Hin; [naive_solver|exact Hs].
Qed.

Lemma asks_route q ep : asks q ep <-> route q = Some ep.
Proof.
  unfold asks, route. split.
  - intros [-> ->]. by destruct ep.
  - destruct (decide _) as [->|]; [|done]. destruct (decide _) as [->|]; [by intros [= <-]|]. destruct (decide _) as [->|]; [by intros [= <-]|].
    destruct (decide _) as [->|]; [by intros [= <-]|done].
Qed.
Lemma asks_plain lib env close other q ep : asks q ep ->
  xmap plain_reply (serve lib env close other q) = t_handle lib env (plain_request ep q).
Proof. intros H. by apply serve_plain, asks_route. Qed.
Lemma asks_nothing lib env close other q : (forall ep, ~ asks q ep) ->
  serve lib env close other q = gzip_handler (n_gunzip env) (x_gunzip lib) other q.
Proof.
  intros H. assert (Hr : forall h b, route (HRequest (hq_method q) (hq_path q) h b) = None).
  { intros h b. destruct (route _) as [ep|] eqn:E; [|done]. by apply asks_route in E as []; destruct (H ep). }
  unfold serve, gzip_handler, router. destruct (decide _); [destruct (n_gunzip env (hq_body q)); [by rewrite Hr|done]|].
  destruct q as [m p h b]. by rewrite Hr.
Qed.
Lemma asks_fields lib env close other q ep r : asks q ep -> serve lib env close other q = XDone r -> forall n v,
  hr_header r !! n = Some v <->
    (n = str "Connection" /\ v = [str "close"] /\ ep = EV1 /\ close = true /\
     ~ (header_get (str "Content-Encoding") (hq_header q) = str "gzip" /\ n_gunzip env (hq_body q) = None)) \/
    (hr_status r = 400 /\ (n, v) ∈ text_fields).
Proof. intros H. by apply serve_fields, asks_route. Qed.
