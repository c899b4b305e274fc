(** Jaeger documents that give a member more than once. *)
From Verif Require Import Base IdModel SpanModel JsonModel CodecModel JsonSpec DocSpec ParseSpec JaegerModel JaegerSpec HandlerModel HandlerSpec HandlerProofs AcceptSpec
  StdJsonModel StdJsonSpec StdJsonProofs StdTextProofs StdDocProofs StdHttpProofs PileSpec.

(* ---------- errors do not depend on what is below ---------- *)
Definition steady {T} (store : tree -> T -> option T) : Prop := forall t a b, store t a = None -> store t b = None.
Lemma steady_string : steady store_string.
Proof. by intros []. Qed.
Lemma steady_uint : steady store_uint.
Proof. by intros []. Qed.
Lemma steady_id : steady store_id.
Proof. by intros []. Qed.
Lemma steady_interface : steady store_interface.
Proof. intros t a b. unfold store_interface. by destruct (interface_ok t). Qed.
Lemma steady_within {T F} (get : T -> F) set store : steady store -> steady (within get set store).
Proof.
  intros H t a b. unfold within. destruct (store t (get a)) eqn:E; [done|]. intros _. by rewrite (H t _ (get b) E).
Qed.
Lemma steady_members {T} (fields : list (gostring * (tree -> T -> option T))) : Forall (fun f => steady f.2) fields ->
  forall ms a b, store_members fields ms a = None -> store_members fields ms b = None.
Proof.
  intros H. assert (Hf : forall k store, find_field fields k = Some store -> steady store).
  { intros k store. induction H as [|[n d] fields Hd H IH]; [done|]. cbn [find_field]. destruct (equal_fold k n); [|done]. by intros [= <-]. }
  induction ms as [|[k v] ms IH]; intros a b; [done|]. cbn [store_members]. destruct (find_field fields _) as [store|] eqn:E; [|apply IH].
  apply Hf in E. destruct (store v a) as [x|] eqn:Ea, (store v b) as [y|] eqn:Eb; try done; [apply IH|]. by rewrite (E v a b Ea) in Eb.
Qed.
Lemma steady_struct {T} (fields : list (gostring * (tree -> T -> option T))) : Forall (fun f => steady f.2) fields -> steady (store_struct fields).
Proof. intros H t a b. destruct t; try done. by apply steady_members. Qed.
Lemma steady_elements {T} (zero : T) store : steady store -> forall l i s s', store_elements zero store i l s = None -> store_elements zero store i l s' = None.
Proof.
  intros H. induction l as [|t l IH]; intros i s s'; [done|]. cbn [store_elements]. cbv zeta.
  destruct (store t (nth i (sl_mem (grow_for zero s i)) zero)) as [x|] eqn:E; destruct (store t (nth i (sl_mem (grow_for zero s' i)) zero)) as [y|] eqn:E'; try done.
  - apply IH.
  - intros _. by rewrite (H t _ _ E) in E'.
Qed.
Lemma steady_slice {T} (zero : T) store : steady store -> steady (store_slice zero store).
Proof. intros H t a b. destruct t; try done. by apply steady_elements. Qed.
Lemma steady_map {T} (zero : T) store : steady (store_map zero store).
Proof.
  intros t a b. destruct t as [| | | | |ms]; try done. cbn [store_map]. revert a b. induction ms as [|[k v] ms IH]; intros a b; [done|]. cbn [store_entries].
  destruct (store v zero); [apply IH|done].
Qed.
Ltac steadies :=
  repeat apply Forall_cons_2; try apply Forall_nil_2; cbn [snd];
  try (apply steady_within); try (apply steady_slice); try (apply steady_struct);
  first [exact steady_string|exact steady_uint|exact steady_id|exact steady_interface|apply steady_map|assumption|idtac].
Lemma steady_tag : Forall (fun f => steady f.2) tag_fields.
Proof. unfold tag_fields. steadies. Qed.
Lemma steady_ref : Forall (fun f => steady f.2) ref_fields.
Proof. unfold ref_fields. steadies. Qed.
Lemma steady_span : Forall (fun f => steady f.2) span_fields.
Proof. pose proof steady_tag. pose proof steady_ref. unfold span_fields. steadies. Qed.
Lemma steady_data : Forall (fun f => steady f.2) data_fields.
Proof. pose proof steady_span. unfold data_fields. steadies. Qed.

(* ---------- piles ---------- *)
Lemma store_members_app {T} (fields : list (gostring * (tree -> T -> option T))) ms1 ms2 : forall x,
  store_members fields (ms1 ++ ms2) x = store_members fields ms1 x ≫= store_members fields ms2.
Proof.
  induction ms1 as [|[k v] ms1 IH]; intros x; [done|]. cbn [app store_members]. destruct (find_field fields _) as [store|]; [|done].
  destruct (store v x); [apply IH|done].
Qed.
Lemma means_members_app ms1 vs1 ms2 vs2 : means_members P ms1 vs1 -> means_members P ms2 vs2 -> means_members P (ms1 ++ ms2) (vs1 ++ vs2).
Proof. induction 1; [done|]. intros. cbn [app]. constructor; auto. Qed.

Section Pile.
Context {T B : Type} (fields : list (gostring * (tree -> T -> option T))) (zero : T) (view : T -> B) (f : json -> option B).
Hypothesis Hsteady : Forall (fun fd => steady fd.2) fields.
Hypothesis Hf : forall ms vs, means_members P ms vs -> Forall (fun m => doubles m.2) vs -> option_map view (store_members fields ms zero) = f (JObj vs).
Hypothesis Hnull : f JNull = f (JObj []).
Hypothesis Hother : forall v, as_members v = None -> f v = None.

Definition built (vs : list (bytes * json)) (x : T) : Prop :=
  exists ms, means_members P ms vs /\ Forall (fun m => doubles m.2) vs /\ store_members fields ms zero = Some x.
Lemma built_zero : built [] zero.
Proof. exists []. split; [constructor|]. split; [constructor|done]. Qed.
Lemma built_view vs x : built vs x -> f (JObj vs) = Some (view x).
Proof. intros (ms & Hm & Hd & E). rewrite <- (Hf ms vs Hm Hd). by rewrite E. Qed.
Lemma doubles_members ms : doubles (JObj ms) -> Forall (fun m => doubles m.2) ms.
Proof. intros H. by inversion H. Qed.
Lemma store_built t v vs x : means P t v -> doubles v -> built vs x ->
  match f v with Some _ => exists y, store_struct fields t x = Some y /\ built (vs ++ members_of v) y | None => store_struct fields t x = None end.
Proof.
  intros H Hd (ms & Hm & Hv & E).
  destruct H as [| | |l Hl|raw s Hj Hu Hp|ts vs' H|ms' vs' H]; try (rewrite Hother by done; done).
  - rewrite Hnull. pose proof (Hf [] [] (mnm_nil _) (Forall_nil_2 _)) as E0. cbn [store_members option_map] in E0. rewrite <- E0. exists x.
    split; [done|]. cbn [members_of]. rewrite app_nil_r. by exists ms.
  - apply doubles_members in Hd. rewrite <- (Hf ms' vs' H Hd). cbn [store_struct members_of].
    destruct (store_members fields ms' zero) as [z|] eqn:Ez; cbn [option_map].
    + destruct (store_members fields ms' x) as [y|] eqn:Ey.
      * exists y. split; [done|]. exists (ms ++ ms'). split; [by apply means_members_app|]. split; [by apply Forall_app|]. rewrite store_members_app, E. done.
      * by rewrite (steady_members fields Hsteady ms' x zero Ey) in Ez.
    + by apply (steady_members fields Hsteady ms' zero x).
Qed.

Lemma elements_built ts l : means_all P ts l -> Forall doubles l -> forall xd below xb k n,
  Forall2 built below xb -> (length xd <= n <= length xd + length xb)%nat -> (0 < length xd + length l)%nat ->
  match traverse f l with
  | Some _ => exists xs k', store_elements zero (store_struct fields) (length xd) ts (Slice (xd ++ xb ++ replicate k zero) n) =
                Some (Slice (xd ++ xs ++ replicate k' zero) (length xd + length l)) /\ Forall2 built (on_top below l) xs /\ (length l <= length xs)%nat
  | None => store_elements zero (store_struct fields) (length xd) ts (Slice (xd ++ xb ++ replicate k zero) n) = None
  end.
Proof.
  induction 1 as [|t v ts l H Hr IH]; intros HQ xd below xb k n HF Hn Hpos.
  { cbn [traverse store_elements on_top length]. exists xb, k. split; [|split; [done|cbn; lia]]. cbn [length] in Hpos. destruct (length xd) as [|i] eqn:El; [lia|].
    cbn [sl_len sl_mem]. rewrite Nat.add_0_r. destruct (Nat.ltb_spec (S i) n) as [?|?]; [done|]. by replace n with (S i) by lia. }
  inversion_clear HQ as [|? ? Hdv Hdl]. cbn [traverse store_elements on_top]. cbv zeta.
  assert (E : exists x xb' k' n', grow_for zero (Slice (xd ++ xb ++ replicate k zero) n) (length xd) = Slice (xd ++ x :: xb' ++ replicate k' zero) n' /\
    built (default [] (head below)) x /\ Forall2 built (tail below) xb' /\ (length xd + 1 <= n' <= length xd + 1 + length xb')%nat).
  { unfold grow_for. cbn [sl_mem sl_len]. rewrite !app_length, replicate_length. destruct HF as [|b x below xb Hb HF].
    - cbn [length] in Hn |- *. replace n with (length xd) by lia. destruct k as [|k].
      + replace (length xd + (0 + 0) <=? length xd)%nat with true by (symmetry; apply Nat.leb_le; lia). cbn [sl_len sl_mem]. rewrite Nat.leb_refl.
        cbn [replicate app]. rewrite app_nil_r, take_ge by lia. rewrite !Nat.add_0_r.
        exists zero, [], (Nat.max (length xd + length xd / 2) 4 - length xd - 1)%nat, (length xd + 1)%nat. cbn [app length head default tail].
        split; [|split; [apply built_zero|split; [constructor|lia]]]. f_equal. f_equal. rewrite <- replicate_S. f_equal.
        assert (length xd < Nat.max (length xd + length xd / 2) 4)%nat; [|lia].
        destruct (decide (length xd < 2)%nat); [lia|]. assert (1 <= length xd / 2)%nat by (apply Nat.div_le_lower_bound; lia). lia.
      + replace (length xd + (0 + S k) <=? length xd)%nat with false by (symmetry; apply Nat.leb_gt; lia). cbn [sl_len sl_mem]. rewrite Nat.leb_refl.
        exists zero, [], k, (length xd + 1)%nat. cbn [app length head default tail]. split; [done|]. split; [apply built_zero|]. split; [constructor|lia].
    - cbn [length] in Hn |- *. replace (length xd + (S (length xb) + k) <=? length xd)%nat with false by (symmetry; apply Nat.leb_gt; lia). cbn [sl_len sl_mem].
      destruct (Nat.leb_spec n (length xd)) as [?|?].
      + exists x, xb, k, (length xd + 1)%nat. cbn [app head default tail]. split; [done|]. split; [done|]. split; [done|lia].
      + exists x, xb, k, n. cbn [app head default tail]. split; [done|]. split; [done|]. split; [done|lia]. }
  destruct E as (x & xb' & k' & n' & -> & Hb & HF' & Hn'). cbn [sl_mem sl_len].
  rewrite app_nth2, Nat.sub_diag by lia. cbn [nth].
  pose proof (store_built t v _ x H Hdv Hb) as Hs. destruct (f v) as [y0|]; [|by rewrite Hs].
  destruct Hs as (y & -> & Hy). rewrite insert_app_r_alt by lia. rewrite Nat.sub_diag. cbn [list_insert insert].
  assert (Em : xd ++ y :: xb' ++ replicate k' zero = (xd ++ [y]) ++ xb' ++ replicate k' zero) by (by rewrite <- app_assoc).
  specialize (IH Hdl (xd ++ [y]) (tail below) xb' k' n' HF'). rewrite app_length in IH. cbn [length] in IH. specialize (IH ltac:(lia) ltac:(lia)).
  unfold insert in *. rewrite Em. destruct (traverse f l) as [ys|]; [|by rewrite IH].
  destruct IH as (xs & k'' & E & Hxs & Hle). exists (y :: xs), k''. rewrite E. split; [|split; [by constructor|cbn; lia]].
  do 2 f_equal; [by rewrite <- app_assoc|cbn; lia].
Qed.

Definition step_pile (below : list (list (bytes * json))) (l : list json) := match l with [] => [] | _ => on_top below l end.
Lemma pile_snoc lists l : pile (lists ++ [l]) = step_pile (pile lists) l.
Proof. unfold pile. by rewrite foldl_app. Qed.
Lemma runs_built ts vs : Forall2 (means P) ts vs -> Forall doubles vs -> forall lists0 xs k,
  Forall2 built (pile lists0) xs -> (length (List.last lists0 []) <= length xs)%nat ->
  match (lists ← traverse as_list vs; _ ← traverse (traverse f) lists; Some lists) with
  | Some lists => exists xs' k', runs (store_slice zero (store_struct fields)) ts (Slice (xs ++ replicate k zero) (length (List.last lists0 []))) =
       Some (Slice (xs' ++ replicate k' zero) (length (List.last (lists0 ++ lists) []))) /\
       Forall2 built (pile (lists0 ++ lists)) xs' /\ (length (List.last (lists0 ++ lists) []) <= length xs')%nat
  | None => runs (store_slice zero (store_struct fields)) ts (Slice (xs ++ replicate k zero) (length (List.last lists0 []))) = None
  end.
Proof.
  induction 1 as [|t v ts vs H Hr IH]; intros HQ lists0 xs k HF Hle.
  { cbn. exists xs, k. by rewrite app_nil_r. }
  inversion_clear HQ as [|? ? Hdv Hdl]. cbn [traverse runs]. specialize (IH Hdl).
  assert (Hstep : forall l, as_list v = Some l -> match traverse f l with
    | Some _ => exists xs' k', store_slice zero (store_struct fields) t (Slice (xs ++ replicate k zero) (length (List.last lists0 []))) =
       Some (Slice (xs' ++ replicate k' zero) (length l)) /\ Forall2 built (step_pile (pile lists0) l) xs' /\ (length l <= length xs')%nat
    | None => store_slice zero (store_struct fields) t (Slice (xs ++ replicate k zero) (length (List.last lists0 []))) = None end).
  { intros l Hl. destruct H as [| | |? ?|raw s Hj Hu Hp|ts' vs' H|ms' vs' H]; try done.
    - injection Hl as <-. cbn. exists [], 0%nat. split; [done|]. split; [constructor|done].
    - injection Hl as <-. assert (Hd' : Forall doubles vs') by (by inversion Hdv). cbn [store_slice]. destruct vs' as [|v' vs'].
      + inversion H; subst. cbn. exists [], 0%nat. split; [done|]. split; [constructor|done].
      + pose proof (elements_built ts' (v' :: vs') H Hd' [] (pile lists0) xs k (length (List.last lists0 [])) HF ltac:(cbn; lia) ltac:(cbn; lia)) as E.
        cbn [length app] in E. exact E. }
  destruct (as_list v) as [l|] eqn:El; cbn [mbind option_bind].
  2:{ destruct H; try done. }
  specialize (Hstep l eq_refl). destruct (traverse f l) as [ys|] eqn:Ey.
  - destruct Hstep as (xs' & k' & Es & HF' & Hle'). rewrite Es.
    specialize (IH (lists0 ++ [l]) xs' k'). rewrite pile_snoc, List.last_last in IH. specialize (IH HF' Hle').
    destruct (traverse as_list vs) as [lists|]; cbn [mbind option_bind traverse option_map] in *; [|done]. rewrite Ey.
    destruct (traverse (traverse f) lists); cbn [mbind option_bind option_map] in *; [|done].
    rewrite <- app_assoc in IH. exact IH.
  - rewrite Hstep. destruct (traverse as_list vs) as [lists|]; cbn [mbind option_bind traverse option_map]; [|done]. by rewrite Ey.
Qed.
Lemma traverse_built below xs : Forall2 built below xs -> traverse f (map JObj below) = Some (map view xs).
Proof. induction 1 as [|b x below xs Hb H IH]; [done|]. cbn [map traverse]. by rewrite (built_view b x Hb), IH. Qed.
Lemma runs_piled ts vs : Forall2 (means P) ts vs -> Forall doubles vs ->
  option_map (fun s => map view (sl_list s)) (runs (store_slice zero (store_struct fields)) ts (Slice [] 0)) =
  (lists ← traverse as_list vs; _ ← traverse (traverse f) lists; traverse f (top_of lists)).
Proof.
  intros H HQ. pose proof (runs_built ts vs H HQ [] [] 0 ltac:(constructor) ltac:(done)) as E. cbn [List.last length app replicate] in E.
  destruct (traverse as_list vs) as [lists|]; cbn [mbind option_bind] in *; [|by rewrite E].
  destruct (traverse (traverse f) lists) as [ys|]; cbn [mbind option_bind] in *; [|by rewrite E].
  destruct E as (xs & k & -> & HF & Hle). cbn [option_map]. unfold sl_list, top_of. cbn [sl_mem sl_len]. rewrite take_app_le by done.
  symmetry. apply traverse_built. by apply Forall2_take.
Qed.
End Pile.

(* ---------- documents ---------- *)
Lemma doubles_named k ms : Forall (fun m => doubles m.2) ms -> Forall doubles (named k ms).
Proof. intros H. unfold named. induction H as [|[n v] ms Hm H IH]; [constructor|]. cbn [List.filter]. case_bool_decide; [|done]. by constructor. Qed.
Lemma tag_built ms vs : means_members P ms vs -> Forall (fun m => doubles m.2) vs -> option_map id (store_members tag_fields ms zero_tag) = jaeger_tag_of (JObj vs).
Proof.
  intros H Hg. rewrite option_map_id. unfold jaeger_tag_of. cbn [as_members mbind option_bind].
  rewrite tag_runs. pose proof (fun k => sel_named P k ms vs H) as Hs. pose proof (fun k => doubles_named k vs Hg) as Hq. cbn [jt_key jt_value zero_tag].
  rewrite (runs_present P doubles store_string as_str _ _ (fun t v old Hm _ => store_string_means P t v old Hm) (Hs _) (Hq _)).
  rewrite (runs_named P doubles store_interface as_tag_value _ _ (fun t v old Hm Hv => store_interface_means P t v old Hm Hv) (Hs _) (Hq _)).
  done.
Qed.
Lemma ref_built ms vs : means_members P ms vs -> Forall (fun m => doubles m.2) vs -> option_map id (store_members ref_fields ms zero_ref) = jaeger_ref_of (JObj vs).
Proof.
  intros H Hg. rewrite option_map_id. unfold jaeger_ref_of. cbn [as_members mbind option_bind].
  rewrite ref_runs. pose proof (fun k => sel_named P k ms vs H) as Hs. pose proof (fun k => doubles_named k vs Hg) as Hq. cbn [jr_type jr_span zero_ref].
  rewrite (runs_present P doubles store_string as_str _ _ (fun t v old Hm _ => store_string_means P t v old Hm) (Hs _) (Hq _)).
  rewrite (runs_named P doubles store_id as_ident _ _ (fun t v old Hm Hv => store_id_means t v old Hm) (Hs _) (Hq _)).
  done.
Qed.
Lemma not_members {A} (g : list (bytes * json) -> option A) v : as_members v = None -> (ms ← as_members v; g ms) = None.
Proof. by intros ->. Qed.
Lemma span_built ms vs : means_members P ms vs -> Forall (fun m => doubles m.2) vs -> option_map view_span (store_members span_fields ms zero_mspan) = piled_span (JObj vs).
Proof.
  intros H Hg. unfold piled_span. cbn [as_members mbind option_bind].
  rewrite span_runs. pose proof (fun k => sel_named P k ms vs H) as Hs. pose proof (fun k => doubles_named k vs Hg) as Hq.
  cbn [ms_trace ms_id ms_operation ms_refs ms_ts ms_dur ms_process ms_tags zero_mspan].
  rewrite !(runs_present P doubles store_string as_str _ _ (fun t v old Hm _ => store_string_means P t v old Hm) (Hs _) (Hq _)).
  rewrite !(runs_present P doubles store_uint as_u64 _ _ (fun t v old Hm _ => store_uint_means P t v old Hm) (Hs _) (Hq _)).
  rewrite !(runs_named P doubles store_id as_ident _ _ (fun t v old Hm Hv => store_id_means t v old Hm) (Hs _) (Hq _)).
  unfold piled. rewrite !present_named.
  rewrite <- (runs_piled ref_fields zero_ref id jaeger_ref_of steady_ref ref_built eq_refl (fun v => not_members _ v) _ _ (Hs (str "references")) (Hq _)).
  rewrite <- (runs_piled tag_fields zero_tag id jaeger_tag_of steady_tag tag_built eq_refl (fun v => not_members _ v) _ _ (Hs (str "tags")) (Hq _)).
  repeat match goal with
  | |- context [last_of ?f ?d ?l] => destruct (last_of f d l); cbn [mbind option_bind option_map]; try done
  | |- context [runs ?f ?d ?l] => destruct (runs f d l); cbn [mbind option_bind option_map]; try done
  end.
  unfold view_span. cbn. by rewrite !map_id.
Qed.

Lemma process_built t v : means P t v -> doubles v -> store_struct process_fields t [] = jaeger_process_of v.
Proof.
  intros H Hg. unfold store_struct, jaeger_process_of. destruct H as [| | |l Hl|raw s Hj Hu Hp|ts vs H|ms vs H]; try done. cbn [as_members mbind option_bind].
  unfold process_fields. rewrite single_runs by done. pose proof (fun k => sel_named P k ms vs H) as Hs. pose proof (fun k => doubles_named k vs (doubles_members _ Hg)) as Hq.
  by rewrite (runs_present P doubles store_string as_str _ _ (fun t v old Hm _ => store_string_means P t v old Hm) (Hs _) (Hq _)).
Qed.
Definition enter (l : list (gostring * gostring)) : gmap gostring gostring := foldl (fun m kv => <[kv.1 := kv.2]> m) ∅ l.
Lemma entries_built ms vs : means_members P ms vs -> Forall (fun m => doubles m.2) vs -> forall old,
  store_entries [] (store_struct process_fields) ms (enter old) = option_map (fun l => enter (old ++ l)) (traverse process_entry vs).
Proof.
  induction 1 as [|raw n t v ms vs Hj Hu H Hr IH]; intros Hg old; [cbn; by rewrite app_nil_r|]. inversion_clear Hg. cbn [store_entries traverse].
  rewrite (process_built t v) by done. unfold process_entry at 1. cbn [fst snd]. destruct (jaeger_process_of v) as [x|]; [|done]. cbn [option_map].
  erewrite (unquote_meaning _ raw n) by done.
  assert (E : <[n := x]> (enter old) = enter (old ++ [(n, x)])) by (unfold enter; by rewrite foldl_app). rewrite E, IH by done.
  destruct (traverse process_entry vs); [|done]. cbn [option_map]. by rewrite <- app_assoc.
Qed.
Lemma traverse_app {A C} (g : A -> option C) l1 l2 : traverse g (l1 ++ l2) = (a ← traverse g l1; b ← traverse g l2; Some (a ++ b)).
Proof.
  induction l1 as [|x l1 IH]; cbn [app traverse].
  - cbn. by destruct (traverse g l2).
  - destruct (g x); [|done]. rewrite IH. destruct (traverse g l1); [|done]. cbn. by destruct (traverse g l2).
Qed.
Lemma processes_built ts vs : Forall2 (means P) ts vs -> Forall doubles vs -> forall vs0 old, traverse process_entry (all_entries vs0) = Some old ->
  runs store_procs ts (enter old) = (objs ← traverse as_members vs; _ ← traverse (traverse process_entry) objs;
    procs ← traverse process_entry (all_entries (vs0 ++ vs)); Some (enter procs)).
Proof.
  induction 1 as [|t v ts vs H Hr IH]; intros HQ vs0 old Hold.
  { cbn. rewrite app_nil_r, Hold. done. }
  inversion_clear HQ as [|? ? Hdv Hdl]. specialize (IH Hdl (vs0 ++ [v])). cbn [runs traverse].
  assert (Ea : all_entries (vs0 ++ [v]) = match v with JNull => [] | _ => all_entries vs0 ++ members_of v end) by (unfold all_entries; rewrite foldl_app; done).
  rewrite Ea, <- app_assoc in IH. cbn [app] in IH.
  destruct H as [| | |l Hl|raw s Hj Hu Hp|ts' vs' H|ms' vs' H]; try done.
  - cbn [store_map as_members]. change (∅ : gmap gostring gostring) with (enter []). rewrite (IH []) by done.
    destruct (traverse as_members vs) as [objs|]; [|done]. cbn [mbind option_bind traverse option_map]. by destruct (traverse (traverse process_entry) objs).
  - cbn [store_map as_members]. rewrite (entries_built ms' vs') by (first [done|by apply doubles_members]). cbn [members_of] in IH.
    rewrite traverse_app, Hold in IH. cbn [mbind option_bind] in IH.
    destruct (traverse process_entry vs') as [es|] eqn:Ees; cbn [mbind option_bind option_map] in *.
    + rewrite (IH _ eq_refl). destruct (traverse as_members vs) as [objs|]; [|done]. cbn [mbind option_bind traverse option_map]. rewrite Ees.
      by destruct (traverse (traverse process_entry) objs).
    + destruct (traverse as_members vs) as [objs|]; [|done]. cbn [mbind option_bind traverse option_map]. by rewrite Ees.
Qed.
Lemma data_built ms vs : means_members P ms vs -> Forall (fun m => doubles m.2) vs -> option_map view_data (store_members data_fields ms zero_mdata) = piled_data (JObj vs).
Proof.
  intros H Hg. unfold piled_data. cbn [as_members mbind option_bind].
  rewrite data_runs. pose proof (fun k => sel_named P k ms vs H) as Hs. pose proof (fun k => doubles_named k vs Hg) as Hq. cbn [md_spans md_procs zero_mdata].
  pose proof (processes_built _ _ (Hs (str "processes")) (Hq _) [] [] eq_refl) as Ep. cbn [app] in Ep.
  change (enter []) with (∅ : gmap gostring gostring) in Ep. unfold piled_processes. change (foldl (fun m kv => <[kv.1 := kv.2]> m) (∅ : gmap gostring gostring)) with enter. rewrite Ep.
  unfold piled.
  rewrite <- (runs_piled span_fields zero_mspan view_span piled_span steady_span span_built eq_refl (fun v => not_members _ v) _ _ (Hs (str "spans")) (Hq _)).
  clear Ep. destruct (runs _ _ _); cbn [mbind option_bind option_map]; [|done].
  destruct (traverse as_members _) as [objs|]; cbn [mbind option_bind option_map]; [|done].
  destruct (traverse (traverse process_entry) objs); cbn [mbind option_bind option_map]; [|done].
  by destruct (traverse process_entry _).
Qed.
Lemma document_built t v : means P t v -> doubles v -> decode_tree t = piled_document v.
Proof.
  intros H Hg. unfold decode_tree, store_struct, piled_document. destruct H as [| | |l Hl|raw s Hj Hu Hp|ts vs H|ms vs H]; try done. cbn [as_members mbind option_bind].
  unfold object_fields. rewrite single_runs by done. pose proof (fun k => sel_named P k ms vs H) as Hs. pose proof (fun k => doubles_named k vs (doubles_members _ Hg)) as Hq.
  unfold piled.
  rewrite <- (runs_piled data_fields zero_mdata view_data piled_data steady_data data_built eq_refl (fun v => not_members _ v) _ _ (Hs (str "data")) (Hq _)).
  by destruct (runs _ _ _).
Qed.

Lemma body_piled chunks e t rest v : begins_with (concat chunks) t rest -> ended t rest -> end_visible t rest e ->
  means plain_ids t v -> doubles v -> jaeger_body (Src chunks e) = piled_document v.
Proof.
  intros (w & l & E & Hw & Hg & Hn) He Hv Hm Hd. unfold jaeger_body. rewrite (json_decode_complete chunks e w t l rest) by done.
  assert (Hc : complete t rest e = true).
  { unfold complete. destruct Hv as [[? ->]|[[? ->]|[H|[b ->]]]]; [done|done| |]; destruct t, rest; try done. }
  rewrite Hc. by apply document_built.
Qed.
Lemma http_piled env q chunks e t rest v : n_jaeger env = jaeger_body -> q_endpoint q = EJaeger -> reads env q (Src chunks e) ->
  begins_with (concat chunks) t rest -> ended t rest -> end_visible t rest e -> means plain_ids t v -> doubles v ->
  exists acts, handle env q = XDone acts /\
  match piled_document v with
  | Some data => exists groups, accepts (concat groups) acts /\ Forall2 (fun d g => Forall2 (jaeger_describes (jd_procs d)) (jd_spans d) g) data groups
  | None => rejects acts
  end.
Proof.
  intros En Hq Hr Hb He Hv Hm Hd. pose proof (body_piled chunks e t rest v Hb He Hv Hm Hd) as Ev.
  destruct (piled_document v) as [data|].
  - destruct (handle_jaeger env q (Src chunks e) data Hq Hr ltac:(by rewrite En)) as (groups & acts & ? & ? & ?). exists acts. split; [done|]. by exists groups.
  - destruct (handle_jaeger_bad env q (Src chunks e) Hq Hr ltac:(by rewrite En)) as (acts & ? & ?). by exists acts.
Qed.

(* ---------- documents that give every list once ---------- *)
Lemma traverse_same {A C} (g h : A -> option C) l : (forall x, x ∈ l -> g x = h x) -> traverse g l = traverse h l.
Proof.
  induction l as [|x l IH]; intros H; [done|]. cbn [traverse]. rewrite (H x) by apply elem_of_list_here.
  rewrite IH; [done|]. intros y Hy. apply H. by apply elem_of_list_further.
Qed.
Lemma on_top_nothing l : on_top [] l = map members_of l.
Proof. induction l as [|v l IH]; [done|]. cbn [on_top head default tail map app]. by rewrite IH. Qed.
Lemma traverse_members {A} (g : list (bytes * json) -> option A) l : traverse (fun v => as_members v ≫= g) l <> None ->
  traverse (fun v => as_members v ≫= g) (map JObj (map members_of l)) = traverse (fun v => as_members v ≫= g) l.
Proof.
  induction l as [|v l IH]; [done|]. cbn [map traverse]. destruct (as_members v ≫= g) as [x|] eqn:E; [|done]. intros H.
  assert (E' : as_members (JObj (members_of v)) ≫= g = Some x) by (destruct v; done). rewrite E', IH; [done|]. by destruct (traverse _ l).
Qed.
Lemma piled_once {A} (g : list (bytes * json) -> option A) h k ms : (length (named k ms) <= 1)%nat ->
  (forall l v, JArr l ∈ named k ms -> v ∈ l -> as_members v ≫= g = h v) ->
  piled (fun v => as_members v ≫= g) k ms = items k ms ≫= traverse h.
Proof.
  intros Hl Hh. unfold piled, items. rewrite present_named. destruct (named k ms) as [|v [|? ?]]; [done| |cbn in Hl; lia].
  destruct v as [| | |? |? |? |l|ms']; try done. cbn [traverse as_list mbind option_bind List.filter nonnull]. rewrite last_of_cons. cbn [as_arr].
  change (last_of as_arr l []) with (Some l). cbn [mbind option_bind]. unfold top_of, pile. cbn [foldl List.last].
  rewrite <- (traverse_same (fun v => as_members v ≫= g) h l) by (intros x Hx; apply (Hh l x); [apply elem_of_list_here|done]).
  destruct (traverse (fun v => as_members v ≫= g) l) as [ys|] eqn:E; [|done]. destruct l as [|v l]; [by injection E as <-|].
  rewrite on_top_nothing. rewrite take_ge by (by rewrite map_length). cbn [mbind option_bind]. rewrite traverse_members; [done|by rewrite E].
Qed.
Lemma once_arr l : given_once (JArr l) -> Forall given_once l.
Proof. intros H. by inversion H. Qed.
Lemma once_members ms : given_once (JObj ms) -> Forall (fun m => given_once m.2) ms.
Proof. intros H. by inversion H. Qed.
Lemma once_named k ms : given_once (JObj ms) -> Forall given_once (named k ms).
Proof.
  intros H%once_members. unfold named. induction H as [|[n v] ms Hm H IH]; [constructor|]. cbn [List.filter]. case_bool_decide; [|done]. by constructor.
Qed.
Lemma once_element k ms l v : given_once (JObj ms) -> JArr l ∈ named k ms -> v ∈ l -> given_once v.
Proof.
  intros H Hl Hv. apply (once_named k) in H. rewrite Forall_forall in H. apply H in Hl. apply once_arr in Hl. rewrite Forall_forall in Hl. by apply Hl.
Qed.
Lemma once_length k ms : given_once (JObj ms) -> k ∈ [str "data"; str "spans"; str "processes"; str "references"; str "tags"] -> (length (named k ms) <= 1)%nat.
Proof. intros Ho Hk. inversion Ho as [l' _ H1|l' H1 _|v _ H1]; subst; [|done]. rewrite Forall_forall in H1. by apply (H1 k). Qed.
Lemma span_once v : given_once v -> piled_span v = jaeger_span_of v.
Proof.
  intros H. unfold piled_span, jaeger_span_of. destruct v as [| | |? |? |? |l|ms]; try done. cbn [as_members mbind option_bind].
  assert (Er : piled jaeger_ref_of (str "references") ms = items (str "references") ms ≫= traverse jaeger_ref_of)
    by (unfold jaeger_ref_of at 1; apply piled_once; [apply once_length; [done|pick]|done]).
  assert (Et : piled jaeger_tag_of (str "tags") ms = items (str "tags") ms ≫= traverse jaeger_tag_of)
    by (unfold jaeger_tag_of at 1; apply piled_once; [apply once_length; [done|pick]|done]).
  by rewrite Er, Et.
Qed.
Lemma processes_once ms : (length (named (str "processes") ms) <= 1)%nat -> piled_processes ms = jaeger_processes_of ms.
Proof.
  intros Hl. unfold piled_processes, jaeger_processes_of. rewrite present_named. destruct (named (str "processes") ms) as [|v [|? ?]]; [done| |cbn in Hl; lia].
  destruct v as [| | |? |? |? |l|ms']; try done. cbn [traverse as_members mbind option_bind List.filter nonnull]. rewrite last_of_cons. cbn [as_obj].
  change (last_of as_obj ms' []) with (Some ms'). cbn [mbind option_bind]. unfold all_entries. cbn [foldl app members_of].
  change (traverse (fun kv => option_map (pair kv.1) (jaeger_process_of kv.2)) ms') with (traverse process_entry ms').
  by destruct (traverse process_entry ms').
Qed.
Lemma data_once v : given_once v -> piled_data v = jaeger_data_of v.
Proof.
  intros H. unfold piled_data, jaeger_data_of. destruct v as [| | |? |? |? |l|ms]; try done. cbn [as_members mbind option_bind].
  assert (Er : piled piled_span (str "spans") ms = items (str "spans") ms ≫= traverse jaeger_span_of).
  { unfold piled_span at 1. apply piled_once; [apply once_length; [done|pick]|]. intros l v Hl Hv. apply span_once. by eapply once_element. }
  rewrite Er, processes_once by (apply once_length; [done|pick]). done.
Qed.
Lemma document_once v : given_once v -> piled_document v = jaeger_document v.
Proof.
  intros H. unfold piled_document, jaeger_document. destruct v as [| | |? |? |? |l|ms]; try done. cbn [as_members mbind option_bind].
  unfold piled_data at 1. apply piled_once; [apply once_length; [done|pick]|]. intros l v Hl Hv. apply data_once. by eapply once_element.
Qed.
