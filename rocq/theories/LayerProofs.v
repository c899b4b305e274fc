(** Lists given twice are laid over each other. *)
From Verif Require Import Base IdModel IdSpec SpanModel JsonModel CodecModel JsonPure JsonSpec JsonProofs JsonSim JsonText DocSpec DocSem DocProofs DocProofs1 ParseSpec
  PoolProofs DocTheorems LayerSpec JaegerModel HandlerModel HandlerSpec HandlerProofs.

Notation sems T := (list (gostring * (T -> json -> option T))).

Lemma struct_fold_app {T} (ss : sems T) a b : forall t, struct_fold ss t (a ++ b) = t' ← struct_fold ss t a; struct_fold ss t' b.
Proof.
  induction a as [|[k v] a IH]; intros t; cbn [app struct_fold]; [done|]. destruct (lookup_sem ss k) as [s|]; [|apply IH].
  destruct (s t v); [apply IH|done].
Qed.

Section layered.
  Context {T : Type} (ss : sems T) (zero : T).
  Let F (ms : list (bytes * json)) := struct_fold ss zero ms.

  Lemma over_slot M x ms : F M = Some x -> struct_fold ss x ms = F (M ++ ms).
  Proof. unfold F. intros H. rewrite struct_fold_app, H. done. Qed.

  Lemma traverse_length {A B} (f : A -> option B) l l' : traverse f l = Some l' -> length l' = length l.
  Proof.
    revert l'. induction l as [|a l IH]; intros l'; cbn [traverse]; [by intros [= <-]|]. destruct (f a); [|done].
    destruct (traverse f l); [|done]. intros [= <-]. cbn [length]. by rewrite (IH l0).
  Qed.
  Lemma lay_length Ms vs Ms' : lay Ms vs = Some Ms' -> (length vs <= length Ms' /\ length Ms <= length Ms')%nat.
  Proof.
    revert Ms Ms'. induction vs as [|v vs IH]; intros Ms Ms'; cbn [lay]; [intros [= <-]; cbn [length]; lia|].
    destruct (as_obj v); [|done]. cbn [mbind option_bind]. destruct (lay (tail Ms) vs) as [r|] eqn:E; [|done]. cbn [mbind option_bind]. intros [= <-].
    destruct (IH _ _ E). destruct Ms; cbn [length tail] in *; lia.
  Qed.
  (** What could not be read below is not read later. *)
  Lemma lay_reads Ms vs Ms' : lay Ms vs = Some Ms' -> traverse F Ms = None -> traverse F Ms' = None.
  Proof.
    revert Ms Ms'. induction vs as [|v vs IH]; intros Ms Ms'; cbn [lay]; [by intros [= <-]|].
    destruct (as_obj v) as [ms|]; [|done]. cbn [mbind option_bind]. destruct (lay (tail Ms) vs) as [r|] eqn:E; [|done]. cbn [mbind option_bind]. intros [= <-].
    destruct Ms as [|M Ms]; [done|]. cbn [tail head default traverse from_option id] in *. unfold F at 1 3. rewrite struct_fold_app. change (struct_fold ss zero M) with (F M).
    destruct (F M) as [x|]; cbn [mbind option_bind]; [|done]. destruct (traverse F Ms) eqn:E2; [done|]. intros _. rewrite (IH _ _ E E2).
    by destruct (struct_fold ss x ms).
  Qed.
  Lemma layers_reads lists : forall Ms Ms', layers Ms lists = Some Ms' -> traverse F Ms = None -> traverse F Ms' = None.
  Proof.
    induction lists as [|l lists IH]; intros Ms Ms'; cbn [layers]; [by intros [= <-]|]. destruct (lay Ms l) as [b|] eqn:E; [|done]. cbn [mbind option_bind].
    intros H Hn. eapply IH; [exact H|]. by eapply lay_reads.
  Qed.

  Lemma array_lay vs : forall dn Ms X n, traverse F Ms = Some X ->
    array_fold (struct_sem ss) (dn ++ X ++ replicate n zero) (length dn) vs =
    option_map (fun X' => dn ++ X' ++ replicate (length X + n - length X') zero) (Ms' ← lay Ms (take (length X + n) vs); traverse F Ms').
  Proof.
    induction vs as [|v vs IH]; intros dn Ms X n HX; cbn [array_fold].
    { rewrite take_nil. cbn [lay mbind option_bind]. rewrite HX. cbn [option_map]. do 4 f_equal. lia. }
    destruct X as [|x X].
    - destruct Ms as [|M Ms]; [|cbn [traverse] in HX; destruct (F M), (traverse F Ms); done]. destruct n as [|n].
      + cbn [length Nat.add take lay mbind option_bind traverse option_map replicate app Nat.sub]. rewrite !app_nil_r. rewrite lookup_ge_None_2 by lia.
        assert (K : forall idx, (length dn <= idx)%nat -> array_fold (struct_sem ss) dn idx vs = Some dn).
        { clear. induction vs as [|v' vs IH]; intros idx Hi; cbn [array_fold]; [done|]. rewrite lookup_ge_None_2 by lia. apply IH. lia. }
        apply K. lia.
      + cbn [length Nat.add app replicate take lay tail head default from_option]. rewrite lookup_app_r, Nat.sub_diag by lia. cbn [lookup list_lookup].
        destruct v; cbn [struct_sem as_obj mbind option_bind option_map]; try done. cbn [app].
        change (struct_fold ss zero l) with (F l).
        destruct (F l) as [y|] eqn:Ey.
        * specialize (IH (dn ++ [y]) [] [] n eq_refl). rewrite app_length in IH. cbn [length Nat.add app] in IH. rewrite <- app_assoc in IH. cbn [app] in IH.
          rewrite insert_app_r_alt, Nat.sub_diag by lia. cbn [insert list_insert]. rewrite IH.
          destruct (lay [] (take n vs)) as [r|]; cbn [mbind option_bind option_map traverse]; [|done]. rewrite Ey.
          destruct (traverse F r) as [X'|]; cbn [option_map]; [|done]. rewrite <- app_assoc. done.
        * destruct (lay [] (take n vs)) as [r|]; cbn [mbind option_bind option_map traverse]; [|done]. by rewrite Ey.
    - destruct Ms as [|M Ms]; [done|]. cbn [traverse] in HX. destruct (F M) as [x'|] eqn:EM; [|done]. destruct (traverse F Ms) as [X0|] eqn:EMs; [|done].
      injection HX as -> ->. cbn [length Nat.add app take lay tail head default from_option]. rewrite lookup_app_r, Nat.sub_diag by lia. cbn [lookup list_lookup].
      destruct v; cbn [struct_sem as_obj mbind option_bind option_map]; try done. rewrite (over_slot M x l EM). cbn [id].
      destruct (F (M ++ l)) as [y|] eqn:Ey.
      + rewrite insert_app_r_alt, Nat.sub_diag by lia. cbn [insert list_insert].
        specialize (IH (dn ++ [y]) Ms X n EMs). rewrite app_length in IH. cbn [length] in IH. rewrite <- app_assoc in IH. cbn [app] in IH. rewrite IH.
        destruct (lay Ms (take (length X + n) vs)) as [r|]; cbn [mbind option_bind option_map traverse]; [|done]. rewrite Ey.
        destruct (traverse F r) as [X'|]; cbn [option_map]; [|done]. rewrite <- app_assoc. done.
      + destruct (lay Ms (take (length X + n) vs)) as [r|]; cbn [mbind option_bind option_map traverse]; [|done]. by rewrite Ey.
  Qed.

  Lemma array_layers lists : forall Ms X n, traverse F Ms = Some X ->
    through (array_sem (struct_sem ss)) (X ++ replicate n zero) (map JArr lists) =
    option_map (fun X' => X' ++ replicate (length X + n - length X') zero) (Ms' ← layers Ms (map (take (length X + n)) lists); traverse F Ms').
  Proof.
    induction lists as [|l lists IH]; intros Ms X n HX; cbn [map through layers mbind option_bind].
    { rewrite HX. cbn [option_map]. do 3 f_equal. lia. }
    cbn [array_sem]. pose proof (array_lay l [] Ms X n HX) as E. cbn [app length] in E. rewrite E. clear E.
    destruct (lay Ms (take (length X + n) l)) as [Ms1|] eqn:EL; cbn [mbind option_bind option_map]; [|done].
    destruct (traverse F Ms1) as [X1|] eqn:E1; cbn [mbind option_bind option_map].
    - rewrite (IH Ms1 X1 _ E1). 
      assert (Hle : (length X1 <= length X + n)%nat).
      { rewrite (traverse_length _ _ _ E1). clear -EL HX. apply traverse_length in HX. rewrite HX in *. clear HX. revert Ms Ms1 EL.
        assert (G : forall vs m Ms Ms1, lay Ms (take m vs) = Some Ms1 -> (length Ms <= m)%nat -> (length Ms1 <= m)%nat).
        { clear. induction vs as [|v vs IH]; intros m Ms Ms1; [rewrite take_nil; cbn [lay]; intros [= <-]; done|]. destruct m as [|m]; cbn [take lay]; [intros [= <-]; done|].
          destruct (as_obj v); [|done]. cbn [mbind option_bind]. destruct (lay (tail Ms) (take m vs)) as [r|] eqn:E; [|done]. cbn [mbind option_bind]. intros [= <-] Hm.
          cbn [length]. apply IH in E; [lia|]. destruct Ms; cbn [tail length] in *; lia. }
        intros Ms Ms1 EL. eapply G; [exact EL|]. lia. }
      replace (length X1 + (length X + n - length X1))%nat with (length X + n)%nat by lia. done.
    - destruct (layers Ms1 (map (take (length X + n)) lists)) as [Ms'|] eqn:E2; cbn [mbind option_bind option_map]; [|done].
      by rewrite (layers_reads _ _ _ E2 E1).
  Qed.

  Lemma slice_lay vs : forall dn Ms X k len, traverse F Ms = Some X -> (len = length dn \/ length dn = 0 /\ len <= length X)%nat ->
    match (Ms' ← lay Ms vs; traverse F Ms') with
    | Some X' => exists k', slice_fold zero (struct_sem ss) (Slice (dn ++ X ++ replicate k zero) len) (length dn) vs =
        Some (Slice (dn ++ X' ++ replicate k' zero) (match vs with [] => len | _ => length dn + length vs end))
    | None => slice_fold zero (struct_sem ss) (Slice (dn ++ X ++ replicate k zero) len) (length dn) vs = None
    end.
  Proof.
    induction vs as [|v vs IH]; intros dn Ms X k len HX Hlen; cbn [slice_fold lay mbind option_bind].
    { rewrite HX. exists k. done. }
    assert (Hg : exists k1, unsafe_grow zero (Slice (dn ++ X ++ replicate k zero) len) (length dn + 1) = Slice (dn ++ X ++ replicate k1 zero) (length dn + 1) /\ (1 <= length X + k1)%nat).
    { unfold unsafe_grow. cbn [sl_mem sl_len]. rewrite !app_length, replicate_length. destruct (Nat.leb_spec (length dn + 1) (length dn + (length X + k))).
      - exists k. split; [done|lia].
      - assert (HX0 : X = []) by (apply nil_length_inv; lia). assert (k = 0)%nat by lia. subst X k. cbn [replicate app length] in *. rewrite !app_nil_r.
        pose proof (new_cap_ge (length dn + (0 + 0)) (length dn + 1)).
        assert (len = length dn) as -> by lia.
        rewrite firstn_all. eexists. split; [reflexivity|]. cbn [length]. lia. }
    destruct Hg as (k1 & Hg & Hk1). rewrite Hg. cbn [sl_mem sl_len]. clear Hg.
    destruct v; cbn [struct_sem as_obj mbind option_bind]; try done. rename l into ms.
    destruct X as [|x X].
    - destruct Ms as [|M Ms]; [|cbn [traverse] in HX; destruct (F M), (traverse F Ms); done]. cbn [length] in Hk1. destruct k1 as [|k1]; [lia|]. cbn [replicate app tail head default from_option].
      rewrite app_nth2, Nat.sub_diag by lia. cbn [nth]. change (struct_fold ss zero ms) with (F ms).
      destruct (F ms) as [y|] eqn:Ey.
      + rewrite insert_app_r_alt, Nat.sub_diag by lia. cbn [insert list_insert].
        specialize (IH (dn ++ [y]) [] [] k1 (length dn + 1)%nat eq_refl). rewrite app_length in IH. cbn [length app] in IH. rewrite <- !app_assoc in IH. cbn [app] in IH.
        specialize (IH ltac:(left; lia)).
        destruct (lay [] vs) as [r|]; cbn [mbind option_bind traverse] in *; [|done]. rewrite Ey.
        destruct (traverse F r) as [X'|]; [|done]. destruct IH as (k' & ->). exists k'. rewrite <- app_assoc. cbn [app length]. do 2 f_equal. destruct vs; cbn [length]; lia.
      + destruct (lay [] vs) as [r|]; cbn [mbind option_bind traverse]; [|done]. by rewrite Ey.
    - destruct Ms as [|M Ms]; [done|]. cbn [traverse] in HX. destruct (F M) as [x'|] eqn:EM; [|done]. destruct (traverse F Ms) as [X0|] eqn:EMs; [|done].
      injection HX as -> ->. cbn [app tail head default from_option]. rewrite app_nth2, Nat.sub_diag by lia. cbn [nth]. rewrite (over_slot M x ms EM). cbn [id].
      destruct (F (M ++ ms)) as [y|] eqn:Ey.
      + rewrite insert_app_r_alt, Nat.sub_diag by lia. cbn [insert list_insert].
        specialize (IH (dn ++ [y]) Ms X k1 (length dn + 1)%nat EMs). rewrite app_length in IH. cbn [length] in IH. rewrite <- !app_assoc in IH. cbn [app] in IH.
        specialize (IH ltac:(left; lia)).
        destruct (lay Ms vs) as [r|]; cbn [mbind option_bind traverse] in *; [|done]. rewrite Ey.
        destruct (traverse F r) as [X'|]; [|done]. destruct IH as (k' & ->). exists k'. rewrite <- app_assoc. cbn [app length]. do 2 f_equal. destruct vs; cbn [length]; lia.
      + destruct (lay Ms vs) as [r|]; cbn [mbind option_bind traverse]; [|done]. by rewrite Ey.
  Qed.

  Definition shown_from (n : nat) (lists : list (list json)) : nat :=
    List.last (List.filter (fun n => negb (n =? 0)%nat) (map length lists)) n.
  Lemma shown_cons n (l : list json) lists : shown_from n (l :: lists) = shown_from (match l with [] => n | _ => length l end) lists.
  Proof. unfold shown_from. cbn [map List.filter]. destruct l; cbn [length Nat.eqb negb]; [done|]. apply last_cons. Qed.

  Lemma slice_layers lists : forall Ms X k len, traverse F Ms = Some X -> (len <= length X)%nat ->
    match (Ms' ← layers Ms lists; traverse F Ms') with
    | Some X' => exists k', through (slice_sem zero (struct_sem ss)) (Slice (X ++ replicate k zero) len) (map JArr lists) =
        Some (Slice (X' ++ replicate k' zero) (shown_from len lists)) /\ (shown_from len lists <= length X')%nat
    | None => through (slice_sem zero (struct_sem ss)) (Slice (X ++ replicate k zero) len) (map JArr lists) = None
    end.
  Proof.
    induction lists as [|l lists IH]; intros Ms X k len HX Hlen; cbn [map through layers mbind option_bind].
    { rewrite HX. exists k. done. }
    cbn [slice_sem]. pose proof (slice_lay l [] Ms X k len HX) as E. cbn [app length] in E. specialize (E ltac:(right; lia)).
    destruct (lay Ms l) as [Ms1|] eqn:EL; cbn [mbind option_bind] in *; [|by rewrite E].
    destruct (traverse F Ms1) as [X1|] eqn:E1.
    - destruct E as (k1 & ->). cbn [mbind option_bind].
      replace (match l with [] => len | _ => (0 + length l)%nat end) with (match l with [] => len | _ => length l end) by (by destruct l). rewrite shown_cons.
      apply (IH Ms1 X1 k1 _ E1). rewrite (traverse_length _ _ _ E1). apply traverse_length in HX. apply lay_length in EL. destruct l; [lia|]. lia.
    - rewrite E. cbn [mbind option_bind]. destruct (layers Ms1 lists) as [Ms'|] eqn:E2; cbn [mbind option_bind]; [|done].
      by rewrite (layers_reads _ _ _ E2 E1).
  Qed.
End layered.

Lemma not_arrays {T} (sem : T -> json -> option T) vs : (forall t v, as_arr v = None -> sem t v = None) -> traverse as_arr vs = None -> forall t, through sem t vs = None.
Proof.
  intros Hs. induction vs as [|v vs IH]; cbn [traverse through]; [done|]. intros H t. destruct (as_arr v) as [l|] eqn:E; [|by rewrite Hs].
  destruct (traverse as_arr vs); [done|]. destruct (sem t v); [|done]. cbn. by apply IH.
Qed.
Lemma arrays vs lists : traverse as_arr vs = Some lists -> vs = map JArr lists.
Proof.
  revert lists. induction vs as [|v vs IH]; intros lists; cbn [traverse]; [by intros [= <-]|]. destruct v; cbn [as_arr]; try done.
  destruct (traverse as_arr vs); [|done]. intros [= <-]. cbn [map]. by rewrite (IH l0).
Qed.
Lemma traverse_ext {A B} (f g : A -> option B) l : (forall a, f a = g a) -> traverse f l = traverse g l.
Proof. intros H. induction l as [|a l IH]; [done|]. cbn [traverse]. by rewrite H, IH. Qed.
Lemma traverse_mk {A B C D} (f : A -> option B) (h : D -> A) (g : B -> C) l : traverse (fun d => option_map g (f (h d))) l = option_map (map g) (traverse f (map h l)).
Proof. induction l as [|a l IH]; [done|]. cbn [traverse map]. rewrite IH. destruct (f (h a)), (traverse f (map h l)); done. Qed.

Lemma annot_objs objs : traverse (struct_fold annot_sems zero_annot) objs = option_map (map mk_annot) (traverse annotation (map JObj objs)).
Proof. rewrite <- traverse_mk. apply traverse_ext. intros ms. apply (annot_sem_spec (JObj ms)). Qed.
Lemma ba_objs objs : traverse (struct_fold ba_sems zero_ba) objs = option_map (map mk_ba) (traverse binary_annotation (map JObj objs)).
Proof. rewrite <- traverse_mk. apply traverse_ext. intros ms. apply (ba_sem_spec (JObj ms)). Qed.

Lemma ann_layered ms : through (array_sem (struct_sem annot_sems)) (replicate 4 zero_annot) (all_values (str "annotations") ms) =
  option_map (fun us => map mk_annot us ++ replicate (4 - length us) zero_annot) (layered_annotations ms).
Proof.
  unfold layered_annotations, lists_of. destruct (traverse as_arr (all_values (str "annotations") ms)) as [lists|] eqn:E; cbn [mbind option_bind option_map].
  - rewrite (arrays _ _ E). pose proof (array_layers annot_sems zero_annot lists [] [] 4 eq_refl) as H. cbn [app length Nat.add] in H. rewrite H.
    destruct (layers [] (map (take 4) lists)) as [objs|]; cbn [mbind option_bind option_map]; [|done]. rewrite annot_objs.
    destruct (traverse annotation (map JObj objs)); cbn [option_map]; [|done]. by rewrite map_length.
  - apply not_arrays; [|done]. intros t v. by destruct v.
Qed.

Lemma ba_layered mem ms : Forall (eq zero_ba) mem ->
  match layered_binaries ms with
  | Some us => exists s, through (slice_sem zero_ba (struct_sem ba_sems)) (Slice mem 0) (all_values (str "binaryAnnotations") ms) = Some s /\ sl_list s = map mk_ba us
  | None => through (slice_sem zero_ba (struct_sem ba_sems)) (Slice mem 0) (all_values (str "binaryAnnotations") ms) = None
  end.
Proof.
  intros Hmem. unfold layered_binaries, lists_of. destruct (traverse as_arr (all_values (str "binaryAnnotations") ms)) as [lists|] eqn:E; cbn [mbind option_bind].
  - rewrite (arrays _ _ E).
    assert (Hrep : mem = replicate (length mem) zero_ba). { clear -Hmem. induction Hmem as [|x mem <- _ IH]; [done|]. cbn [length replicate]. by rewrite <- IH. }
    pose proof (slice_layers ba_sems zero_ba lists [] [] (length mem) 0 eq_refl ltac:(done)) as H. cbn [app] in H. rewrite <- Hrep in H.
    destruct (layers [] lists) as [objs|]; cbn [mbind option_bind] in *; [|done]. rewrite ba_objs in H.
    destruct (traverse binary_annotation (map JObj objs)) as [us|]; cbn [option_map mbind option_bind] in *; [|done].
    destruct H as (k' & H & Hl). rewrite H. eexists. split; [reflexivity|]. unfold sl_list. cbn [sl_mem sl_len]. rewrite take_app_le by done.
    change (shown_from 0 lists) with (shown lists). by rewrite firstn_map.
  - apply not_arrays; [|done]. intros t v. by destruct v.
Qed.

Lemma v1_layered_sem t v : clean t ->
  match v1_span_layered v with
  | Some u => exists x, struct_sem v1_sems (reset_v1 t) v = Some x /\ v1_to_span x = u /\ True
  | None => struct_sem v1_sems (reset_v1 t) v = None
  end.
Proof.
  intros Hc. destruct v; try done. destruct (reset_clean t Hc) as (mem & Hmem & ->).
  unfold struct_sem, v1_span_layered. rewrite v1_fold. cbn [as_obj mbind option_bind v1_id v1_trace v1_parent v1_ts v1_dur v1_name v1_annots v1_bas].
  rewrite !field_through. rewrite ann_layered. pose proof (ba_layered mem l Hmem) as Hbt.
  do 6 (match goal with |- context [through ?s ?d ?vs] => destruct (through s d vs); cbn [mbind option_bind option_map]; [|reflexivity] end).
  destruct (layered_annotations l) as [anns|]; cbn [option_map mbind option_bind]; [|reflexivity].
  destruct (layered_binaries l) as [bas|]; cbn [mbind option_bind]; [|by rewrite Hbt].
  destruct Hbt as (s' & -> & Hs). cbn [mbind option_bind].
  match goal with |- context [SpanV1 ?tr ?id ?par (_ ++ replicate ?n _) _ ?name ?ts ?dur] =>
    pose proof (v1_to_span_spec tr id par anns n s' bas name ts dur Hs) as E end.
  revert E. cbv beta zeta iota.
  destruct (decide (0 < timing (str "cs") anns /\ 0 < timing (str "cr") anns));
    [|destruct (decide (0 < timing (str "sr") anns /\ 0 < timing (str "ss") anns))]; cbv beta zeta iota; intros E;
    (eexists; split; [reflexivity|]; split; [exact E|exact I]).
Qed.

Lemma v1_layered_doc v pool : Forall clean pool ->
  match slice_sem zero_v1 (fun t => struct_sem v1_sems (reset_v1 t)) (Slice pool 0) v with
  | Some s => v1_spans_layered v = Some (map v1_to_span (sl_list s)) | None => v1_spans_layered v = None end.
Proof.
  intros Hpool. destruct v; try reflexivity. cbn [slice_sem].
  pose proof (slice_fold_spec zero_v1 (fun t => struct_sem v1_sems (reset_v1 t)) v1_to_span v1_span_layered clean (fun _ => True) l clean_zero) as E.
  specialize (E ltac:(apply Forall_forall; intros v _ t Ht; by apply v1_layered_sem) (Slice pool 0)). cbn [sl_len sl_mem] in E. rewrite drop_0 in E.
  specialize (E ltac:(lia) Hpool ltac:(constructor)).
  unfold v1_spans_layered. cbn [as_arr mbind option_bind]. destruct (traverse v1_span_layered l).
  - destruct E as (s & -> & E & _). by rewrite E.
  - by rewrite E.
Qed.

Lemma v1_any m v l w rest chunks e buf fuel pool : loose m v l -> ws w -> delimited v rest -> concat chunks = w ++ l ++ rest ->
  (m <= length buf)%nat -> (5 <= length buf)%nat -> no_eager_error e ->
  (length chunks + length (concat chunks) < fuel)%nat -> (2 * length l + 2 < fuel)%nat -> pooled_once pool ->
  exists pool', ParseJsonV1 fuel buf pool (Src chunks e) = XDone (v1_spans_layered v, pool').
Proof.
  intros Ht Hw Hd Hc Hm Hb He Hf1 Hf2 Hpool%once_clean. unfold ParseJsonV1.
  pose proof (decodes_v1 fuel (length buf) m Hm (Slice pool 0) v l w rest Ht (ws_sep w Hw) Hd Hf2) as H.
  pose proof (v1_layered_doc v pool Hpool) as Hs. rewrite <- Hc in H.
  destruct (slice_sem zero_v1 (fun t => struct_sem v1_sems (reset_v1 t)) (Slice pool 0) v) as [s|].
  - rewrite (exec_of_q fuel _ chunks e buf (s, true)); [|done..|unfold parse_v1_prog; by rewrite H]. cbn [xmap v1_result snd fst].
    rewrite Hs. eexists. reflexivity.
  - destruct H as (a & [H|(l' & H)]);
    (rewrite (exec_of_q fuel _ chunks e buf (a, false)); [|done..|unfold parse_v1_prog; by rewrite H]; cbn [xmap v1_result snd fst]; rewrite Hs; eexists; reflexivity).
Qed.

Lemma handle_any env q m v l w rest chunks e : q_endpoint q = EV1 -> declared_json (q_type q) -> reads env q (Src chunks e) ->
  text m v l -> ws w -> delimited v rest -> concat chunks = w ++ l ++ rest ->
  (m <= length (n_buf env))%nat -> (5 <= length (n_buf env))%nat -> no_eager_error e ->
  (length chunks + length (concat chunks) < n_fuel env)%nat -> (2 * length l + 2 < n_fuel env)%nat -> pooled_once (n_pool env) ->
  exists acts, handle env q = XDone acts /\ answers (v1_spans_layered v) acts.
Proof.
  intros Eq Hj Hr Ht Hw Hd Hc H1 H2 H3 H4 H5 H6. rewrite (handle_reads _ _ _ Hr). unfold handle_spans. rewrite Eq.
  assert (contains (q_type q) (str "application/json") = true) as -> by (by apply contains_spec).
  destruct (v1_any m v l w rest chunks e (n_buf env) (n_fuel env) (n_pool env)) as [pool' E]; try done. { by apply (text_loose m). }
  unfold parse_spans. cbn [parser]. rewrite E. cbn [xmap fst]. destruct (v1_spans_layered v); eexists; (split; [done|done]).
Qed.

Lemma request_any env q v : v1_request_any env q v -> exists acts, handle env q = XDone acts /\ answers (v1_spans_layered v) acts.
Proof. intros (Eq & Hj & Hp & m & l & w & rest & chunks & e & Hr & Ht & Hw & Hd & Hc & H1 & H2 & H3 & H4 & H5). by eapply (handle_any env q m v l w rest chunks e). Qed.

Lemma layered_once v : at_most_once (str "annotations") v -> at_most_once (str "binaryAnnotations") v -> v1_span_layered v = v1_span v.
Proof.
  intros Ha Hb. pose proof (v1_span_sem zero_v1 v clean_zero Ha Hb) as A. pose proof (v1_layered_sem zero_v1 v clean_zero) as B.
  destruct (v1_span v) as [u|], (v1_span_layered v) as [u'|]; [..|done].
  - destruct A as (x & E & <- & _), B as (x' & E' & <- & _). rewrite E in E'. by injection E' as ->.
  - destruct A as (x & E & _). by rewrite E in B.
  - destruct B as (x & E & _). by rewrite E in A.
Qed.
