(** The decoded spans are the described spans: version 1 objects, slices, whole documents. *)
From Verif Require Import Base IdModel IdSpec SpanModel JsonModel CodecModel JsonPure JsonSpec JsonText DocSpec DocSem DocProofs.

Lemma v1_fold ms : forall t, struct_fold v1_sems t ms =
  id ← through (fun _ => as_id) (v1_id t) (all_values (str "id") ms);
  tr ← through (fun _ => as_id) (v1_trace t) (all_values (str "traceId") ms);
  par ← through (fun _ => as_id) (v1_parent t) (all_values (str "parentId") ms);
  ts ← through (fun _ => as_uint) (v1_ts t) (all_values (str "timestamp") ms);
  dur ← through (fun _ => as_uint) (v1_dur t) (all_values (str "duration") ms);
  name ← through (fun _ => as_str) (v1_name t) (all_values (str "name") ms);
  anns ← through (array_sem (struct_sem annot_sems)) (v1_annots t) (all_values (str "annotations") ms);
  bas ← through (slice_sem zero_ba (struct_sem ba_sems)) (v1_bas t) (all_values (str "binaryAnnotations") ms);
  Some (SpanV1 tr id par anns bas name ts dur).
Proof.
  induction ms as [|[k v] ms IH]; intros t. { destruct t; done. }
  cbn [struct_fold]. remember (struct_fold v1_sems) as F eqn:HF. clear HF. unfold v1_sems. cbn [lookup_sem]. rewrite !all_values_cons.
  split_key k; [|split_key k; [|split_key k; [|split_key k; [|split_key k; [|split_key k; [|split_key k; [|split_key k]]]]]]].
  9: apply IH.
  all: repeat rewrite decide_False by discriminate; rewrite ?decide_True by reflexivity; cbn [through]; unfold at_sem; cbv beta; one_value v; [rewrite IH; done|all_through; done].
Qed.

Lemma ba_fold ms : forall t, struct_fold ba_sems t ms =
  key ← through (fun _ => as_str) (ba_key t) (all_values (str "key") ms);
  value ← through (fun _ => as_text) (ba_value t) (all_values (str "value") ms);
  service ← through endpoint_sem (ba_endpoint t) (all_values (str "endpoint") ms);
  Some (BinAnnot key value service).
Proof.
  induction ms as [|[k v] ms IH]; intros t. { destruct t; done. }
  cbn [struct_fold]. remember (struct_fold ba_sems) as F eqn:HF. clear HF. unfold ba_sems. cbn [lookup_sem]. rewrite !all_values_cons.
  split_key k; [|split_key k; [|split_key k]].
  4: apply IH.
  all: repeat rewrite decide_False by discriminate; rewrite ?decide_True by reflexivity; cbn [through]; unfold at_sem; cbv beta; one_value v; [rewrite IH; done|all_through; done].
Qed.

Lemma annot_fold ms : forall t, struct_fold annot_sems t ms =
  ts ← through (fun _ => as_uint) (an_ts t) (all_values (str "timestamp") ms);
  value ← through (fun _ => as_str) (an_value t) (all_values (str "value") ms);
  service ← through endpoint_sem (an_endpoint t) (all_values (str "endpoint") ms);
  Some (Annot ts value service).
Proof.
  induction ms as [|[k v] ms IH]; intros t. { destruct t; done. }
  cbn [struct_fold]. remember (struct_fold annot_sems) as F eqn:HF. clear HF. unfold annot_sems. cbn [lookup_sem]. rewrite !all_values_cons.
  split_key k; [|split_key k; [|split_key k]].
  4: apply IH.
  all: repeat rewrite decide_False by discriminate; rewrite ?decide_True by reflexivity; cbn [through]; unfold at_sem; cbv beta; one_value v; [rewrite IH; done|all_through; done].
Qed.

Definition mk_ba (x : gostring * gostring * gostring) : binaryAnnotationV1 := BinAnnot x.1.1 x.1.2 x.2.
Definition mk_annot (x : Z * gostring * gostring) : annotationV1 := Annot x.1.1 x.1.2 x.2.

Lemma ba_sem_spec v : struct_sem ba_sems zero_ba v = option_map mk_ba (binary_annotation v).
Proof.
  destruct v; try done. unfold struct_sem, binary_annotation. rewrite ba_fold. cbn [as_obj mbind option_bind].
  change (service_of (str "endpoint") l) with (service_from [] (str "endpoint") l). rewrite service_through, !field_through.
  cbn [zero_ba ba_key ba_value ba_endpoint]. all_through.
Qed.

Lemma annot_sem_spec v : struct_sem annot_sems zero_annot v = option_map mk_annot (annotation v).
Proof.
  destruct v; try done. unfold struct_sem, annotation. rewrite annot_fold. cbn [as_obj mbind option_bind].
  change (service_of (str "endpoint") l) with (service_from [] (str "endpoint") l). rewrite service_through, !field_through.
  cbn [zero_annot an_ts an_value an_endpoint]. all_through.
Qed.

(* ---------- slices ---------- *)

Lemma calc_cap_ge fuel cap want : (want <= calc_cap fuel cap want)%nat.
Proof. revert cap. induction fuel as [|fuel IH]; intros cap; cbn [calc_cap]; [done|]. destruct (Nat.leb_spec want cap); [done|apply IH]. Qed.
Lemma new_cap_ge cap want : (want <= new_cap cap want)%nat.
Proof. unfold new_cap. destruct cap; [done|]. apply calc_cap_ge. Qed.

Lemma unsafe_grow_spec {T} (zero : T) (P : T -> Prop) s : P zero -> (sl_len s <= length (sl_mem s))%nat -> Forall P (drop (sl_len s) (sl_mem s)) ->
  let s' := unsafe_grow zero s (sl_len s + 1) in
  sl_len s' = (sl_len s + 1)%nat /\ (sl_len s' <= length (sl_mem s'))%nat /\ take (sl_len s) (sl_mem s') = sl_list s /\
  Forall P (drop (sl_len s) (sl_mem s')).
Proof.
  intros Hz Hl HP s'. unfold s', unsafe_grow. destruct (Nat.leb_spec (sl_len s + 1) (length (sl_mem s))); cbn [sl_len sl_mem]; [done|].
  pose proof (new_cap_ge (length (sl_mem s)) (sl_len s + 1)) as Hc.
  assert (Ht : length (take (sl_len s) (sl_mem s)) = sl_len s) by (rewrite take_length; lia).
  split; [done|]. split; [rewrite app_length, replicate_length; lia|]. split.
  - rewrite take_app_le by lia. rewrite take_take, Nat.min_id. done.
  - rewrite drop_app_ge by lia. rewrite Ht, Nat.sub_diag, drop_0. apply Forall_replicate. done.
Qed.

(** Elements decoded one after the other into slots that satisfy [P]; [Q] holds of the slots afterwards. *)
Lemma slice_fold_spec {T U} (zero : T) (sem : T -> json -> option T) (f : T -> U) (g : json -> option U) (P Q : T -> Prop) vs :
  P zero ->
  Forall (fun v => forall t, P t -> match g v with Some u => exists x, sem t v = Some x /\ f x = u /\ Q x | None => sem t v = None end) vs ->
  forall s, (sl_len s <= length (sl_mem s))%nat -> Forall P (drop (sl_len s) (sl_mem s)) -> Forall Q (sl_list s) ->
  match traverse g vs with
  | Some us => exists s', slice_fold zero sem s (sl_len s) vs = Some s' /\ map f (sl_list s') = map f (sl_list s) ++ us /\
      (sl_len s' <= length (sl_mem s'))%nat /\ Forall P (drop (sl_len s') (sl_mem s')) /\ Forall Q (sl_list s')
  | None => slice_fold zero sem s (sl_len s) vs = None
  end.
Proof.
  intros Hz HF. induction HF as [|v vs Hv _ IH]; intros s Hl HP HQ; cbn [traverse slice_fold].
  { exists s. rewrite app_nil_r. done. }
  destruct (unsafe_grow_spec zero P s Hz Hl HP) as (G1 & G2 & G3 & G4). set (s1 := unsafe_grow zero s (sl_len s + 1)) in *.
  destruct (sl_mem s1 !! sl_len s) as [el|] eqn:Eel; [|apply lookup_ge_None in Eel; lia].
  rewrite (nth_lookup_Some _ _ _ _ Eel).
  assert (Hel : P el). { rewrite Forall_lookup in G4. apply (G4 0%nat). by rewrite lookup_drop, Nat.add_0_r. }
  specialize (Hv el Hel). destruct (g v) as [u|]; [|by rewrite Hv]. destruct Hv as (x & -> & <- & HQx).
  set (s2 := Slice (<[sl_len s := x]> (sl_mem s1)) (sl_len s1)).
  assert (Hs2 : sl_list s2 = sl_list s ++ [x]).
  { unfold sl_list, s2. cbn [sl_mem sl_len]. rewrite G1, Nat.add_1_r. rewrite (take_S_r _ _ x) by (rewrite list_lookup_insert; [done|lia]).
    rewrite take_insert by lia. by rewrite G3. }
  assert (Hd2 : drop (sl_len s2) (sl_mem s2) = drop (sl_len s + 1) (sl_mem s1)).
  { unfold s2. cbn [sl_mem sl_len]. rewrite G1. rewrite drop_insert_gt by lia. done. }
  specialize (IH s2). replace (sl_len s2) with (sl_len s + 1)%nat in IH by (unfold s2; cbn; lia).
  assert (A1 : (sl_len s + 1 <= length (sl_mem s2))%nat) by (unfold s2; cbn [sl_mem]; rewrite insert_length; lia).
  assert (A2 : Forall P (drop (sl_len s + 1) (sl_mem s2))).
  { replace (sl_len s + 1)%nat with (sl_len s2) by (unfold s2; cbn; lia). rewrite Hd2.
    rewrite <- drop_drop. by apply Forall_drop. }
  assert (A3 : Forall Q (sl_list s2)) by (rewrite Hs2; apply Forall_app_2; [done|by constructor]).
  specialize (IH A1 A2 A3). destruct (traverse g vs) as [us|].
  - destruct IH as (s' & E & Em & Hrest). exists s'. split; [exact E|]. split; [|done]. rewrite Em, Hs2, map_app, <- app_assoc. done.
  - exact IH.
Qed.

(** Arrays: the first elements, the rest of the slots as before. *)
Lemma array_fold_spec {T U} (sem : T -> json -> option T) (mk : U -> T) (g : json -> option U) (zero : T) vs :
  (forall v, sem zero v = option_map mk (g v)) ->
  forall done n, array_fold sem (done ++ replicate n zero) (length done) vs =
    option_map (fun us => done ++ map mk us ++ replicate (n - length us) zero) (traverse g (take n vs)).
Proof.
  intros Hs. induction vs as [|v vs IH]; intros dn n; cbn [array_fold].
  { rewrite take_nil. cbn. by rewrite Nat.sub_0_r. }
  destruct n as [|n].
  - cbn [replicate take traverse option_map map app length Nat.sub]. rewrite !app_nil_r. rewrite lookup_ge_None_2 by lia.
    assert (K : forall idx, (length dn <= idx)%nat -> array_fold sem dn idx vs = Some dn).
    { clear IH. induction vs as [|v' vs IH]; intros idx Hi; cbn [array_fold]; [done|]. rewrite lookup_ge_None_2 by lia. apply IH. lia. }
    apply K. lia.
  - cbn [replicate take traverse]. rewrite lookup_app_r, Nat.sub_diag by lia. cbn [lookup list_lookup]. rewrite Hs.
    destruct (g v) as [u|]; cbn [option_map]; [|done].
    rewrite insert_app_r_alt, Nat.sub_diag by lia. cbn [insert list_insert].
    specialize (IH (dn ++ [mk u]) n). rewrite app_length in IH. cbn [length] in IH. rewrite <- app_assoc in IH. cbn [app] in IH. rewrite IH.
    destruct (traverse g (take n vs)) as [us|]; cbn [option_map]; [|done]. f_equal. rewrite <- app_assoc. done.
Qed.

(* ---------- version 2 ---------- *)

Lemma wrap_nanos x : microseconds (wrap64 x) = nanos x.
Proof. unfold microseconds, nanos, microsecond. zlia. Qed.

Lemma v2_to_span_spec tr id par name service tags kind ts dur :
  v2_to_span (SpanV2 tr id par name service tags kind ts dur) =
  let start := nanos ts in
  let d := if nanos dur =? 0 then 1000000 else nanos dur in
  let stop := wrap64 (start + d) in
  Span id par tr name service start d (<[str "protocolVersion" := str "json v2"]> tags)
    (if decide (fold_case kind = str "client") then Timings start stop 0 0
     else if decide (fold_case kind = str "server") then Timings 0 0 stop start
     else Timings 0 0 0 0).
Proof.
  assert (Hc : equal_fold kind (str "client") = bool_decide (fold_case kind = str "client")) by (by apply equal_fold_spec).
  assert (Hs : equal_fold kind (str "server") = bool_decide (fold_case kind = str "server")) by (by apply equal_fold_spec).
  unfold v2_to_span. cbn [v2_id v2_trace v2_parent v2_ts v2_dur v2_name v2_kind v2_tags v2_endpoint].
  rewrite Hc, Hs. clear Hc Hs. rewrite wrap_nanos. change (wrap64 (wrap64 dur * microsecond)) with (microseconds (wrap64 dur)). rewrite wrap_nanos.
  change tag_protocol_version with (str "protocolVersion").
  assert (Hcs : ~ (fold_case kind = str "client" /\ fold_case kind = str "server")) by (intros [E1 E2]; rewrite E1 in E2; discriminate E2).
  generalize (str "protocolVersion") (str "json v2"). intros pv j2.
  assert (Hb : (if decide (service = []) then new_span name tr id par else set_service service (new_span name tr id par)) = set_service service (new_span name tr id par)).
  { destruct (decide (service = [])) as [->|]; done. }
  rewrite Hb. clear Hb.
  destruct (decide (fold_case kind = str "client")) as [Ec|Nc];
    [rewrite (bool_decide_true _ Ec)|rewrite (bool_decide_false _ Nc)];
    (destruct (decide (fold_case kind = str "server")) as [Es|Ns];
    [rewrite (bool_decide_true _ Es)|rewrite (bool_decide_false _ Ns)]); [by destruct Hcs|..]; clear;
    cbv beta zeta iota delta [set_service new_span set_tags add_tag set_ts set_dur set_timings set_cs set_cr set_ss set_sr ts_add millisecond zero_timings
     s_tags s_dur s_ts s_id s_parent s_trace s_name s_service s_timings tCS tCR tSS tSR];
    generalize (nanos dur) (nanos ts); intros d t; destruct (d =? 0); reflexivity.
Qed.

Lemma v2_span_sem v : option_map v2_to_span (struct_sem v2_sems zero_v2 v) = v2_span v.
Proof.
  destruct v; try done. unfold struct_sem, v2_span. rewrite v2_fold. cbn [as_obj mbind option_bind].
  change (service_of (str "localEndpoint") l) with (service_from [] (str "localEndpoint") l). rewrite service_through, !field_through.
  change (v2_id zero_v2) with 0. change (v2_trace zero_v2) with 0. change (v2_parent zero_v2) with 0. change (v2_ts zero_v2) with 0. change (v2_dur zero_v2) with 0.
  change (v2_name zero_v2) with (@nil Z). change (v2_kind zero_v2) with (@nil Z). change (v2_endpoint zero_v2) with (@nil Z). change (v2_tags zero_v2) with (∅ : gmap gostring gostring).
  do 9 (match goal with |- context [through ?s ?d ?vs] => destruct (through s d vs); cbn [mbind option_bind option_map]; [|reflexivity] end).
  rewrite v2_to_span_spec. reflexivity.
Qed.

(* ---------- version 1 ---------- *)

Definition timing_from (d : Z) (k : gostring) (anns : list (Z * gostring * gostring)) : Z :=
  List.last (map (fun a => nanos a.1.1) (List.filter (fun a => bool_decide (a.1.1 <> 0 /\ a.1.2 = k)) anns)) d.
Definition named (s : gostring) (l : list gostring) : gostring := if decide (s = []) then first_name l else s.

Lemma timing_from_cons d k a anns :
  timing_from d k (a :: anns) = timing_from (if decide (a.1.1 <> 0 /\ a.1.2 = k) then nanos a.1.1 else d) k anns.
Proof.
  unfold timing_from. cbn [List.filter]. destruct (decide (a.1.1 <> 0 /\ a.1.2 = k)) as [H|H].
  - rewrite (bool_decide_true _ H). cbn [map]. apply last_cons.
  - rewrite (bool_decide_false _ H). done.
Qed.

Lemma named_cons s n l : named s (n :: l) = named (if decide (s = [] /\ n <> []) then n else s) l.
Proof.
  unfold named, first_name. cbn [List.filter]. destruct (decide (s = [])) as [->|Hs].
  - destruct (decide (n = [])) as [->|Hn].
    + rewrite (bool_decide_false ([] <> [])) by naive_solver. rewrite (decide_False (P := [] = [] /\ [] <> [])) by naive_solver. done.
    + rewrite (bool_decide_true (n <> [])) by done. rewrite (decide_True (P := [] = [] /\ n <> [])) by done. rewrite decide_False by done. done.
  - rewrite (decide_False (P := s = [] /\ n <> [])) by naive_solver. rewrite decide_False by done. done.
Qed.
Lemma named_nil s : named s [] = s.
Proof. unfold named. by destruct (decide (s = [])) as [->|]. Qed.
Lemma named_app s l l' : named s (l ++ l') = named (named s l) l'.
Proof. revert s. induction l as [|n l IH]; intros s; [by rewrite named_nil|]. cbn [app]. rewrite !named_cons. apply IH. Qed.

Lemma add_annots anns : forall s, foldl add_annot s (map mk_annot anns) =
  Span (s_id s) (s_parent s) (s_trace s) (s_name s) (named (s_service s) (map snd (List.filter (fun a => bool_decide (a.1.1 <> 0)) anns)))
    (s_ts s) (s_dur s) (s_tags s)
    (Timings (timing_from (tCS (s_timings s)) (str "cs") anns) (timing_from (tCR (s_timings s)) (str "cr") anns)
             (timing_from (tSS (s_timings s)) (str "ss") anns) (timing_from (tSR (s_timings s)) (str "sr") anns)).
Proof.
  induction anns as [|a anns IH]; intros s.
  { cbn [map foldl List.filter]. rewrite named_nil. destruct s as [? ? ? ? ? ? ? ? []]; done. }
  cbn [map foldl]. rewrite IH. rewrite !timing_from_cons. cbn [List.filter]. destruct a as [[ts k] e]. unfold mk_annot, add_annot. cbn [fst snd an_ts an_value an_endpoint].
  destruct (Z.eqb_spec ts 0) as [->|Hts].
  - rewrite (bool_decide_false (0 <> 0)) by lia. repeat rewrite decide_False by (intros []; lia). done.
  - rewrite (bool_decide_true (ts <> 0)) by done. cbn [map snd]. rewrite named_cons. rewrite wrap_nanos. generalize (nanos ts). intros t.
    assert (Hk : forall k', (if decide (ts <> 0 /\ k = k') then t else 0) = (if decide (k = k') then t else 0)).
    { intros k'. destruct (decide (k = k')); [rewrite decide_True by done|rewrite decide_False by naive_solver]; done. }
    assert (Hk' : forall k' (d : Z), (if decide (ts <> 0 /\ k = k') then t else d) = (if decide (k = k') then t else d)).
    { intros k' d. destruct (decide (k = k')); [rewrite decide_True by done|rewrite decide_False by naive_solver]; done. }
    rewrite !Hk'. clear Hk Hk'. destruct s as [id par tr name sv tst dur tags [cs cr ss sr]].
    assert (Hu : forall x, use_service e x = set_service (if decide (s_service x = [] /\ e <> []) then e else s_service x) x).
    { intros x. unfold use_service. destruct (decide (s_service x = [] /\ e <> [])); [done|]. by destruct x. }
    rewrite !Hu. clear Hu IH. unfold add_timing.
    destruct (decide (k = str "cs")) as [->|N1]; [|destruct (decide (k = str "cr")) as [->|N2]; [|destruct (decide (k = str "sr")) as [->|N3];
      [|destruct (decide (k = str "ss")) as [->|N4]]]]; repeat rewrite decide_False by discriminate; reflexivity.
Qed.

Lemma add_zero_annots n s : foldl add_annot s (replicate n zero_annot) = s.
Proof. induction n as [|n IH]; [done|]. exact IH. Qed.

Lemma add_bas bas : forall s, foldl add_ba s (map mk_ba bas) =
  Span (s_id s) (s_parent s) (s_trace s) (s_name s) (named (s_service s) (map snd bas))
    (s_ts s) (s_dur s) (foldl (fun m b => <[b.1.1 := b.1.2]> m) (s_tags s) bas) (s_timings s).
Proof.
  induction bas as [|b bas IH]; intros s.
  { cbn [map foldl]. rewrite named_nil. by destruct s. }
  cbn [map foldl]. rewrite IH, named_cons. destruct b as [[k v] e]. unfold mk_ba, add_ba. cbn [fst snd ba_key ba_value ba_endpoint].
  assert (Hu : forall x, use_service e x = set_service (if decide (s_service x = [] /\ e <> []) then e else s_service x) x).
  { intros x. unfold use_service. destruct (decide (s_service x = [] /\ e <> [])); [done|]. by destruct x. }
  rewrite Hu. destruct s; reflexivity.
Qed.

Lemma v1_to_span_spec tr id par anns n s bas name ts dur : sl_list s = map mk_ba bas ->
  v1_to_span (SpanV1 tr id par (map mk_annot anns ++ replicate n zero_annot) s name ts dur) =
  let service := first_name (map snd (List.filter (fun a => bool_decide (a.1.1 <> 0)) anns) ++ map snd bas) in
  let tags := <[str "protocolVersion" := str "json v1"]>
                (foldl (fun m b => <[b.1.1 := b.1.2]> m) (∅ : gmap gostring gostring) bas) in
  let '(cs, cr, ss, sr) := (timing (str "cs") anns, timing (str "cr") anns, timing (str "ss") anns, timing (str "sr") anns) in
  let '(start, d) :=
    if decide (0 < cs /\ 0 < cr) then (cs, wrap64 (cr - cs))
    else if decide (0 < sr /\ 0 < ss) then (sr, wrap64 (ss - sr))
    else (nanos ts, nanos dur) in
  Span id par tr name service start (if d =? 0 then 1000000 else d) tags (Timings cs cr ss sr).
Proof.
  intros Hb. unfold v1_to_span. cbn [v1_id v1_trace v1_parent v1_ts v1_dur v1_name v1_annots v1_bas]. rewrite Hb.
  rewrite foldl_app, add_zero_annots, add_annots, add_bas. clear Hb.
  change (s_service (new_span name tr id par)) with (@nil Z). change (s_timings (new_span name tr id par)) with (Timings 0 0 0 0).
  cbn [tCS tCR tSS tSR]. change (@timing_from 0) with timing.
  set (cs := timing (str "cs") anns). set (cr := timing (str "cr") anns). set (ss := timing (str "ss") anns). set (sr := timing (str "sr") anns).
  change (tag_protocol_version) with (str "protocolVersion").
  cbn [s_tags s_dur s_ts s_id s_parent s_trace s_name s_service s_timings new_span set_tags add_tag set_ts set_dur].
  rewrite wrap_nanos. change (wrap64 (wrap64 dur * microsecond)) with (microseconds (wrap64 dur)). rewrite wrap_nanos.
  rewrite <- named_app. change (named [] ?x) with (first_name x).
  generalize (foldl (fun m b => <[b.1.1 := b.1.2]> m) (∅ : gmap gostring gostring) bas). intros tags.
  match goal with |- context [first_name ?l] => generalize (first_name l) end. intros service.
  generalize (str "protocolVersion") (str "json v1"). intros pv j1.
  clearbody cs cr ss sr.
  assert (E : forall a b : Z, (0 <? a) && (0 <? b) = bool_decide (0 < a /\ 0 < b)).
  { intros a b. destruct (Z.ltb_spec 0 a), (Z.ltb_spec 0 b); cbn [andb]; symmetry; [apply bool_decide_true|apply bool_decide_false..]; lia. }
  assert (Hx : forall x : span, s_ts x = 0 -> s_dur x = 0 ->
    (if dur =? 0 then (if ts =? 0 then x else set_ts (nanos ts) x) else set_dur (nanos dur) (if ts =? 0 then x else set_ts (nanos ts) x)) =
    set_dur (nanos dur) (set_ts (nanos ts) x)).
  { intros x H1 H2. destruct (Z.eqb_spec ts 0) as [->|], (Z.eqb_spec dur 0) as [->|]; try reflexivity;
      change (nanos 0) with 0; destruct x; cbn in H1, H2 |- *; subst; reflexivity. }
  rewrite Hx by reflexivity. unfold fill_in_timestamp.
  cbv beta zeta iota delta [set_tags set_ts set_dur add_tag s_tags s_dur s_ts s_id s_parent s_trace s_name s_service s_timings tCS tCR tSS tSR millisecond].
  rewrite !E. destruct (decide (0 < sr /\ 0 < ss)) as [H1|H1]; [rewrite (bool_decide_true _ H1)|rewrite (bool_decide_false _ H1)];
    (destruct (decide (0 < cs /\ 0 < cr)) as [H2|H2]; [rewrite (bool_decide_true _ H2)|rewrite (bool_decide_false _ H2)]); clear;
    match goal with |- context [?d =? 0] => destruct (d =? 0) end; reflexivity.
Qed.

(** A pooled slot whose unused memory is blank. *)
Definition clean_slice (s : slice binaryAnnotationV1) : Prop :=
  (sl_len s <= length (sl_mem s))%nat /\ Forall (eq zero_ba) (drop (sl_len s) (sl_mem s)).
Definition clean (t : spanV1) : Prop := clean_slice (v1_bas t).

Lemma clean_zero : clean zero_v1.
Proof. split; [done|]. constructor. Qed.

Lemma reset_clean t : clean t -> exists mem, Forall (eq zero_ba) mem /\
  reset_v1 t = SpanV1 0 0 0 (replicate 4 zero_annot) (Slice mem 0) [] 0 0.
Proof.
  intros [Hl Hz]. unfold reset_v1. eexists. split; [|reflexivity]. apply Forall_app_2; [|done]. by apply Forall_replicate.
Qed.

Lemma concat_one {A} (l : list A) : concat [l] = l.
Proof. cbn. apply app_nil_r. Qed.

Lemma ann_through vs : (length vs <= 1)%nat -> through (array_sem (struct_sem annot_sems)) (replicate 4 zero_annot) vs =
  option_map (fun us => map mk_annot us ++ replicate (4 - length us) zero_annot)
    (all ← option_map (@concat json) (traverse as_arr vs); traverse annotation (take 4 all)).
Proof.
  destruct vs as [|v [|? ?]]; cbn [length]; intros H; [reflexivity| |lia]. cbn [through traverse].
  destruct v; try reflexivity. cbn [as_arr array_sem option_map mbind option_bind]. rewrite concat_one.
  pose proof (array_fold_spec (struct_sem annot_sems) mk_annot annotation zero_annot l annot_sem_spec [] 4) as E. cbn [app length] in E. rewrite E.
  destruct (traverse annotation (take 4 l)); reflexivity.
Qed.

Lemma ba_through mem vs : (length vs <= 1)%nat -> Forall (eq zero_ba) mem ->
  match (all ← option_map (@concat json) (traverse as_arr vs); traverse binary_annotation all) with
  | Some us => exists s, through (slice_sem zero_ba (struct_sem ba_sems)) (Slice mem 0) vs = Some s /\ sl_list s = map mk_ba us /\ clean_slice s
  | None => through (slice_sem zero_ba (struct_sem ba_sems)) (Slice mem 0) vs = None
  end.
Proof.
  intros Hv Hmem. destruct vs as [|v [|? ?]]; cbn [length] in Hv; [| |lia].
  { cbn [traverse option_map mbind option_bind concat through]. eexists. split; [reflexivity|]. split; [reflexivity|].
    split; [cbn; lia|]. cbn [sl_len sl_mem]. by rewrite drop_0. }
  cbn [through traverse]. destruct v; try reflexivity. cbn [as_arr slice_sem option_map mbind option_bind]. rewrite concat_one.
  pose proof (slice_fold_spec zero_ba (struct_sem ba_sems) id (fun v => option_map mk_ba (binary_annotation v)) (eq zero_ba) (fun _ => True) l eq_refl) as E.
  assert (Hel : Forall (fun v => forall t, zero_ba = t ->
    match option_map mk_ba (binary_annotation v) with Some u => exists x, struct_sem ba_sems t v = Some x /\ id x = u /\ True | None => struct_sem ba_sems t v = None end) l).
  { apply Forall_forall. intros v _ t <-. rewrite ba_sem_spec. destruct (binary_annotation v); cbn [option_map]; [|done]. eexists. split; [reflexivity|]. done. }
  specialize (E Hel (Slice mem 0)). cbn [sl_len sl_mem] in E. rewrite drop_0 in E.
  specialize (E ltac:(lia) Hmem ltac:(constructor)).
  assert (Ht : traverse (fun v => option_map mk_ba (binary_annotation v)) l = option_map (map mk_ba) (traverse binary_annotation l)).
  { clear. induction l as [|v l IH]; [done|]. cbn [traverse]. rewrite IH. destruct (binary_annotation v), (traverse binary_annotation l); done. }
  rewrite Ht in E. destruct (traverse binary_annotation l) as [us|]; cbn [option_map] in E.
  - destruct E as (s' & -> & Em & Hl & Hz & _). eexists. split; [reflexivity|]. split; [|by split].
    unfold sl_list at 2 in Em. rewrite !map_id in Em. exact Em.
  - by rewrite E.
Qed.

Lemma v1_span_sem t v : clean t -> at_most_once (str "annotations") v -> at_most_once (str "binaryAnnotations") v ->
  match v1_span v with
  | Some u => exists x, struct_sem v1_sems (reset_v1 t) v = Some x /\ v1_to_span x = u /\ clean x
  | None => struct_sem v1_sems (reset_v1 t) v = None
  end.
Proof.
  intros Hc Ha Hb. destruct v; try done. unfold at_most_once in Ha, Hb. destruct (reset_clean t Hc) as (mem & Hmem & ->).
  unfold struct_sem, v1_span. rewrite v1_fold. cbn [as_obj mbind option_bind v1_id v1_trace v1_parent v1_ts v1_dur v1_name v1_annots v1_bas].
  rewrite !field_through. rewrite ann_through by done. pose proof (ba_through mem _ Hb Hmem) as Hbt.
  unfold elements_of.
  do 6 (match goal with |- context [through ?s ?d ?vs] => destruct (through s d vs); cbn [mbind option_bind option_map]; [|reflexivity] end).
  match goal with |- context [option_map (@concat json) ?x] => destruct x as [aa|]; cbn [option_map mbind option_bind]; [|reflexivity] end.
  destruct (traverse annotation (take 4 (concat aa))) as [anns|]; cbn [option_map mbind option_bind]; [|reflexivity].
  destruct (traverse as_arr (all_values (str "binaryAnnotations") l)) as [bb|]; cbn [option_map mbind option_bind] in Hbt |- *; [|by rewrite Hbt].
  destruct (traverse binary_annotation (concat bb)) as [bas|]; cbn [mbind option_bind]; [|by rewrite Hbt].
  destruct Hbt as (s' & -> & Hs & Hcl). cbn [mbind option_bind].
  match goal with |- context [SpanV1 ?tr ?id ?par (_ ++ replicate ?n _) _ ?name ?ts ?dur] =>
    pose proof (v1_to_span_spec tr id par anns n s' bas name ts dur Hs) as E end.
  revert E. cbv beta zeta iota.
  destruct (decide (0 < timing (str "cs") anns /\ 0 < timing (str "cr") anns));
    [|destruct (decide (0 < timing (str "sr") anns /\ 0 < timing (str "ss") anns))]; cbv beta zeta iota; intros E;
    (eexists; split; [reflexivity|]; split; [exact E|exact Hcl]).
Qed.

Lemma v2_doc_sem v : match slice_sem zero_v2 (fun _ => struct_sem v2_sems zero_v2) (Slice [] 0) v with
  | Some s => v2_spans v = Some (map v2_to_span (sl_list s)) | None => v2_spans v = None end.
Proof.
  destruct v; try reflexivity. cbn [slice_sem v2_spans as_arr mbind option_bind].
  pose proof (slice_fold_spec zero_v2 (fun _ => struct_sem v2_sems zero_v2) v2_to_span v2_span (fun _ => True) (fun _ => True) l I) as E.
  specialize (E ltac:(apply Forall_forall; intros v _ t _; rewrite <- v2_span_sem; destruct (struct_sem v2_sems zero_v2 v); cbn [option_map]; eauto) (Slice [] 0)).
  cbn [sl_len sl_mem] in E. specialize (E ltac:(done) ltac:(constructor) ltac:(constructor)).
  unfold v2_spans. cbn [as_arr mbind option_bind]. destruct (traverse v2_span l).
  - destruct E as (s & -> & E & _). by rewrite E.
  - by rewrite E.
Qed.

Lemma v1_doc_sem v pool : Forall clean pool ->
  (forall vs, v = JArr vs -> Forall (fun v => at_most_once (str "annotations") v /\ at_most_once (str "binaryAnnotations") v) vs) ->
  match slice_sem zero_v1 (fun t => struct_sem v1_sems (reset_v1 t)) (Slice pool 0) v with
  | Some s => v1_spans v = Some (map v1_to_span (sl_list s)) /\ Forall clean (sl_mem s) | None => v1_spans v = None end.
Proof.
  intros Hpool Hv. destruct v; try reflexivity. cbn [slice_sem]. specialize (Hv _ eq_refl).
  pose proof (slice_fold_spec zero_v1 (fun t => struct_sem v1_sems (reset_v1 t)) v1_to_span v1_span clean clean l clean_zero) as E.
  assert (H1 : Forall (fun v => forall t, clean t -> match v1_span v with Some u => exists x, struct_sem v1_sems (reset_v1 t) v = Some x /\ v1_to_span x = u /\ clean x
      | None => struct_sem v1_sems (reset_v1 t) v = None end) l).
  { eapply Forall_impl; [exact Hv|]. intros v [Ha Hb] t Ht. by apply v1_span_sem. }
  specialize (E H1 (Slice pool 0)). cbn [sl_len sl_mem] in E. rewrite drop_0 in E. specialize (E ltac:(lia) Hpool ltac:(constructor)).
  unfold v1_spans. cbn [as_arr mbind option_bind]. destruct (traverse v1_span l).
  - destruct E as (s & -> & E & _ & HP & HQ). split; [by rewrite E|]. rewrite <- (take_drop (sl_len s) (sl_mem s)). by apply Forall_app_2.
  - by rewrite E.
Qed.
