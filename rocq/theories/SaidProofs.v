(** Documents that say everything about their binary annotations do not depend on the pooled memory. *)
From Verif Require Import Base IdModel IdSpec SpanModel JsonModel CodecModel JsonPure JsonSpec JsonProofs JsonSim JsonText DocSpec DocSem DocProofs DocProofs1 ParseSpec
  PoolProofs DocTheorems JaegerModel HandlerModel HandlerSpec HandlerProofs SwapSpec LayerSpec LayerProofs SaidSpec.

Lemma through_given {A} (f : json -> option A) vs a b : vs <> [] -> through (fun _ => f) a vs = through (fun _ => f) b vs.
Proof. destruct vs; [done|]. intros _. cbn [through]. by destruct (f j). Qed.
Lemma field_given {A} (f : json -> option A) k ms a b : all_values k ms <> [] -> field f a k ms = field f b k ms.
Proof. intros H. rewrite !field_through. by apply through_given. Qed.

Lemma in_concat {A} (o : A) (os : list (list A)) l : l ∈ os -> o ∈ l -> o ∈ concat os.
Proof. intros H1 H2. apply elem_of_list_In, in_concat. exists l. split; by apply elem_of_list_In. Qed.
Lemma traverse_in {A B} (f : A -> option B) l l' a b : traverse f l = Some l' -> a ∈ l -> f a = Some b -> b ∈ l'.
Proof.
  revert l'. induction l as [|x l IH]; intros l' E Ha Hf; [by apply elem_of_nil in Ha|]. cbn [traverse] in E. destruct (f x) as [y|] eqn:Ex; [|done].
  destruct (traverse f l) as [ys|]; [|done]. injection E as <-. apply elem_of_cons in Ha as [->|Ha]; [|by apply elem_of_list_further, IH].
  rewrite Ex in Hf. injection Hf as ->. apply elem_of_list_here.
Qed.
Lemma service_given ms o a b : JObj o ∈ all_values (str "endpoint") ms -> all_values (str "serviceName") o <> [] ->
  service_from a (str "endpoint") ms = service_from b (str "endpoint") ms.
Proof.
  intros Ho Hs. unfold service_from. destruct (traverse as_obj (all_values (str "endpoint") ms)) as [objs|] eqn:E; [|done]. apply field_given.
  assert (Hin : o ∈ objs) by (by eapply traverse_in). clear E Ho. apply elem_of_list_split in Hin as (l1 & l2 & ->). rewrite concat_app. cbn [concat].
  unfold all_values in *. rewrite !List.filter_app, !map_app. destruct (map snd (List.filter (fun m => bool_decide (m.1 = str "serviceName")) o)); [done|].
  intros H. apply app_eq_nil in H as [_ H]. cbn [app] in H. discriminate H.
Qed.

Lemma whole_sem v t t' : whole v -> struct_sem ba_sems t v = struct_sem ba_sems t' v.
Proof.
  destruct v; try done. intros (Hk & Hv & o & Ho & Hs). unfold struct_sem. rewrite !ba_fold. rewrite <- !service_through.
  rewrite (through_given as_str _ (ba_key t) (ba_key t') Hk), (through_given as_text _ (ba_value t) (ba_value t') Hv), (service_given l o (ba_endpoint t) (ba_endpoint t') Ho Hs).
  done.
Qed.

(** Two slices that agree in the first [n] slots, which are those in use. *)
Definition agree {T} (n : nat) (s s' : slice T) : Prop :=
  sl_len s = sl_len s' /\ (sl_len s <= n)%nat /\ (n <= length (sl_mem s))%nat /\ (n <= length (sl_mem s'))%nat /\ take n (sl_mem s) = take n (sl_mem s').

Section memories.
  Context {T : Type} (zero : T) (sem : T -> json -> option T) (ok : json -> Prop).
  Context (sem_ok : forall v t t', ok v -> sem t v = sem t' v).

  Lemma grow_keeps (s : slice T) idx n : (sl_len s = idx \/ idx = 0)%nat -> (sl_len s <= n)%nat -> (idx <= n)%nat -> (n <= length (sl_mem s))%nat ->
    sl_len (unsafe_grow zero s (idx + 1)) = (idx + 1)%nat /\ (max n (idx + 1) <= length (sl_mem (unsafe_grow zero s (idx + 1))))%nat /\
    take n (sl_mem (unsafe_grow zero s (idx + 1))) = take n (sl_mem s).
  Proof.
    intros Hi Hn Hin Hl. unfold unsafe_grow. destruct (Nat.leb_spec (idx + 1) (length (sl_mem s))) as [H|H]; cbn [sl_len sl_mem]; [repeat split; lia|].
    pose proof (new_cap_ge (length (sl_mem s)) (idx + 1)) as Hc. assert (n = length (sl_mem s)) as -> by lia.
    assert (E : sl_len s = length (sl_mem s)) by lia. rewrite E, firstn_all. split; [done|].
    split; [rewrite app_length, replicate_length; lia|]. by rewrite take_app.
  Qed.

  Lemma two_memories vs : Forall ok vs -> forall n s s' idx, agree n s s' -> (sl_len s = idx \/ idx = 0)%nat -> (idx <= n)%nat ->
    match slice_fold zero sem s idx vs, slice_fold zero sem s' idx vs with
    | Some r, Some r' => exists n', agree n' r r'
    | None, None => True
    | _, _ => False
    end.
  Proof.
    induction 1 as [|v vs Hv _ IH]; intros n s s' idx (A1 & A2 & A3 & A4 & A5) Hi Hin; cbn [slice_fold]. { exists n. by repeat split. }
    destruct (grow_keeps s idx n Hi A2 Hin A3) as (G1 & G2 & G3). destruct (grow_keeps s' idx n ltac:(lia) ltac:(lia) Hin A4) as (G1' & G2' & G3').
    set (r := unsafe_grow zero s (idx + 1)) in *. set (r' := unsafe_grow zero s' (idx + 1)) in *. clearbody r r'.
    rewrite (sem_ok v (nth idx (sl_mem r) zero) (nth idx (sl_mem r') zero) Hv). destruct (sem (nth idx (sl_mem r') zero) v) as [el|]; [|done].
    apply (IH (max n (idx + 1))%nat); [|left; cbn [sl_len]; lia|lia]. unfold agree. cbn [sl_len sl_mem]. rewrite !insert_length, G1, G1'.
    split; [done|]. split; [lia|]. split; [lia|]. split; [lia|].
    apply list_eq. intros i. destruct (decide (i < max n (idx + 1))%nat) as [Hl|Hl]; [|rewrite !lookup_ge_None_2; [done|rewrite take_length; lia..]].
    rewrite !lookup_take by done. destruct (decide (i = idx)) as [->|Ne]; [rewrite !list_lookup_insert by lia; done|].
    rewrite !list_lookup_insert_ne by done. assert (Hlt : (i < n)%nat) by lia.
    rewrite <- (lookup_take (sl_mem r) n i Hlt), <- (lookup_take (sl_mem r') n i Hlt), G3, G3', A5. done.
  Qed.
  Lemma memories_through vs : (forall l, JArr l ∈ vs -> Forall ok l) -> forall n s s', agree n s s' ->
    match through (slice_sem zero sem) s vs, through (slice_sem zero sem) s' vs with
    | Some r, Some r' => exists n', agree n' r r'
    | None, None => True
    | _, _ => False
    end.
  Proof.
    induction vs as [|v vs IH]; intros Hok n s s' Ha; cbn [through]; [by exists n|].
    destruct v; cbn [slice_sem mbind option_bind]; try done.
    pose proof (two_memories l (Hok l (elem_of_list_here _ _)) n s s' 0 Ha ltac:(right; done) ltac:(lia)) as H.
    destruct (slice_fold zero sem s 0 l) as [r|], (slice_fold zero sem s' 0 l) as [r'|]; cbn [mbind option_bind]; try done.
    destruct H as (n' & H). apply (IH ltac:(intros; apply Hok; by apply elem_of_list_further) n'). done.
  Qed.
End memories.

Lemma ba_whole mem ms : (forall l, JArr l ∈ all_values (str "binaryAnnotations") ms -> Forall whole l) ->
  match layered_binaries ms with
  | Some us => exists s, through (slice_sem zero_ba (struct_sem ba_sems)) (Slice mem 0) (all_values (str "binaryAnnotations") ms) = Some s /\ sl_list s = map mk_ba us
  | None => through (slice_sem zero_ba (struct_sem ba_sems)) (Slice mem 0) (all_values (str "binaryAnnotations") ms) = None
  end.
Proof.
  intros Hw. pose proof (ba_layered [] ms ltac:(constructor)) as B.
  pose proof (memories_through zero_ba (struct_sem ba_sems) whole whole_sem _ Hw 0 (Slice mem 0) (Slice [] 0)) as M.
  specialize (M ltac:(unfold agree; cbn [sl_len sl_mem length]; repeat split; lia)).
  destruct (layered_binaries ms) as [us|].
  - destruct B as (s & E & Hs). rewrite E in M. destruct (through _ (Slice mem 0) _) as [r|]; [|done]. destruct M as (n & A1 & A2 & A3 & A4 & A5).
    exists r. split; [done|]. rewrite <- Hs. unfold sl_list. rewrite <- A1. replace (sl_len r) with (min (sl_len r) n) by lia. rewrite <- !take_take. by rewrite A5.
  - rewrite B in M. by destruct (through _ (Slice mem 0) _).
Qed.

Lemma v1_whole_sem t v : whole_span v ->
  match v1_span_layered v with
  | Some u => exists x, struct_sem v1_sems (reset_v1 t) v = Some x /\ v1_to_span x = u /\ True
  | None => struct_sem v1_sems (reset_v1 t) v = None
  end.
Proof.
  intros Hw. destruct v; try done. cbn [whole_span] in Hw. unfold reset_v1. set (mem := replicate _ _ ++ _). clearbody mem.
  unfold struct_sem, v1_span_layered. rewrite v1_fold. cbn [as_obj mbind option_bind v1_id v1_trace v1_parent v1_ts v1_dur v1_name v1_annots v1_bas].
  rewrite !field_through. rewrite ann_layered. pose proof (ba_whole mem l Hw) as Hbt.
  do 6 (match goal with |- context [through ?s ?d ?vs] => destruct (through s d vs); cbn [mbind option_bind option_map]; [|reflexivity] end).
  destruct (layered_annotations l) as [anns|]; cbn [option_map mbind option_bind]; [|reflexivity].
  destruct (layered_binaries l) as [bas|]; cbn [mbind option_bind]; [|by rewrite Hbt].
  destruct Hbt as (s' & -> & Hs). cbn [mbind option_bind].
  match goal with |- context [SpanV1 ?tr ?id ?par (_ ++ replicate ?n _) _ ?name ?ts ?dur] =>
    pose proof (v1_to_span_spec tr id par anns n s' bas name ts dur Hs) as E end.
  revert E. cbv beta zeta iota.
  destruct (decide (0 < timing (str "cs") anns /\ 0 < timing (str "cr") anns));
    [|destruct (decide (0 < timing (str "sr") anns /\ 0 < timing (str "ss") anns))]; cbv beta zeta iota; intros E;
    (eexists; split; [reflexivity|]; split; [exact E|exact I]).
Qed.

Lemma v1_whole_doc v pool : (forall vs, v = JArr vs -> Forall whole_span vs) ->
  match slice_sem zero_v1 (fun t => struct_sem v1_sems (reset_v1 t)) (Slice pool 0) v with
  | Some s => v1_spans_layered v = Some (map v1_to_span (sl_list s)) | None => v1_spans_layered v = None end.
Proof.
  intros Hw. destruct v; try reflexivity. cbn [slice_sem]. specialize (Hw l eq_refl).
  pose proof (slice_fold_spec zero_v1 (fun t => struct_sem v1_sems (reset_v1 t)) v1_to_span v1_span_layered (fun _ => True) (fun _ => True) l I) as E.
  specialize (E ltac:(eapply Forall_impl; [exact Hw|]; intros v Hv t _; by apply v1_whole_sem) (Slice pool 0)). cbn [sl_len sl_mem] in E.
  specialize (E ltac:(lia) ltac:(by apply Forall_forall) ltac:(constructor)).
  unfold v1_spans_layered. cbn [as_arr mbind option_bind]. destruct (traverse v1_span_layered l).
  - destruct E as (s & -> & E & _). by rewrite E.
  - by rewrite E.
Qed.

Lemma v1_whole m v l w rest chunks e buf fuel pool : loose m v l -> ws w -> delimited v rest -> concat chunks = w ++ l ++ rest ->
  (m <= length buf)%nat -> (5 <= length buf)%nat -> no_eager_error e ->
  (length chunks + length (concat chunks) < fuel)%nat -> (2 * length l + 2 < fuel)%nat -> (forall vs, v = JArr vs -> Forall whole_span vs) ->
  exists pool', ParseJsonV1 fuel buf pool (Src chunks e) = XDone (v1_spans_layered v, pool').
Proof.
  intros Ht Hw Hd Hc Hm Hb He Hf1 Hf2 Hv. unfold ParseJsonV1.
  pose proof (decodes_v1 fuel (length buf) m Hm (Slice pool 0) v l w rest Ht (ws_sep w Hw) Hd Hf2) as H.
  pose proof (v1_whole_doc v pool Hv) as Hs. rewrite <- Hc in H.
  destruct (slice_sem zero_v1 (fun t => struct_sem v1_sems (reset_v1 t)) (Slice pool 0) v) as [s|].
  - rewrite (exec_of_q fuel _ chunks e buf (s, true)); [|done..|unfold parse_v1_prog; by rewrite H]. cbn [xmap v1_result snd fst].
    rewrite Hs. eexists. reflexivity.
  - destruct H as (a & [H|(l' & H)]);
    (rewrite (exec_of_q fuel _ chunks e buf (a, false)); [|done..|unfold parse_v1_prog; by rewrite H]; cbn [xmap v1_result snd fst]; rewrite Hs; eexists; reflexivity).
Qed.

Lemma whole_request env q v : v1_request_any_memory env q v -> (forall vs, v = JArr vs -> Forall whole_span vs) ->
  exists acts, handle env q = XDone acts /\ answers (v1_spans_layered v) acts.
Proof.
  intros (Eq & Hj & m & l & w & rest & chunks & e & Hr & Ht & Hw & Hd & Hc & H1 & H2 & H3 & H4 & H5) Hv. rewrite (handle_reads _ _ _ Hr). unfold handle_spans. rewrite Eq.
  assert (contains (q_type q) (str "application/json") = true) as -> by (by apply contains_spec).
  destruct (v1_whole m v l w rest chunks e (n_buf env) (n_fuel env) (n_pool env)) as [pool' E]; try done. { by apply (text_loose m). }
  unfold parse_spans. cbn [parser]. rewrite E. cbn [xmap fst]. destruct (v1_spans_layered v); eexists; (split; [done|done]).
Qed.
