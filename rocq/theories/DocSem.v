(** The decoders on texts of JSON values. *)
From Verif Require Import Base IdModel IdSpec IdProofs SpanModel JsonModel CodecModel JsonPure JsonSpec JsonProofs JsonSim JsonFacts JsonText DocSpec.

Definition fails {A} (y : yres (A * bool)) : Prop := exists a, y = YError (a, false) \/ exists l, y = YDone (a, false) l.

Lemma ythen_fails {A B} (y : yres (A * bool)) (f : A -> B) k : fails y -> fails (ythen y f k).
Proof. intros (a & [->|(l & ->)]); cbn [ythen]; eexists; eauto. Qed.

Lemma text_str m s l : loose m (JStr s) l -> exists raw, l = 34 :: raw ++ [34] /\ loose_string raw s /\ (length raw < m)%nat.
Proof. inversion 1; eauto. Qed.
Lemma text_num m t l : loose m (JNum t) l -> l = t /\ loose_number t /\ (length t < m)%nat.
Proof. inversion 1; eauto. Qed.
Lemma text_arr m vs l : loose m (JArr vs) l -> exists l', l = 91 :: l' ++ [93] /\ loose_elements m vs l'.
Proof. inversion 1; eauto. Qed.
Lemma text_obj m ms l : loose m (JObj ms) l -> exists l', l = 123 :: l' ++ [125] /\ loose_members m ms l'.
Proof. inversion 1; eauto. Qed.

Lemma text_nonempty m v l : loose m v l -> (0 < length l)%nat.
Proof. intros H. destruct (text_head _ _ _ H) as (b & l' & -> & _). cbn; lia. Qed.
Lemma elements_count m vs l : loose_elements m vs l -> (length vs <= length l)%nat.
Proof. induction 1 as [|w v l vs l' H1 H2 H3 H4 IH]; [cbn; lia|]. apply text_nonempty in H2; lens; lia. Qed.
Lemma members_count m ms l : loose_members m ms l -> (length ms <= length l)%nat.
Proof. induction 1; lens; lia. Qed.

(* ---------- digits ---------- *)

Lemma dec_value_mod l : forall a b, a mod 2^64 = b mod 2^64 -> dec_value a l mod 2^64 = dec_value b l mod 2^64.
Proof.
  induction l as [|c l IH]; intros a b H; cbn [dec_value]; [done|]. apply IH.
  rewrite (Z.add_mod (a * 10)), (Z.add_mod (b * 10)) by done. rewrite (Z.mul_mod a), (Z.mul_mod b), H by done. done.
Qed.

Lemma digits_value_spec l : forall acc, 0 <= acc < 2^64 ->
  digits_value acc l = if forallb (fun c => (48 <=? c) && (c <=? 57)) l then Some (dec_value acc l mod 2^64) else None.
Proof.
  induction l as [|c l IH]; intros acc Ha; cbn [digits_value forallb dec_value].
  - by rewrite Z.mod_small.
  - replace ((c <? 48) || (57 <? c)) with (negb ((48 <=? c) && (c <=? 57))) by lia. destruct ((48 <=? c) && (c <=? 57)); cbn [negb andb]; [|done].
    assert (Hr : 0 <= u64 (acc * 10 + (c - 48)) < 2^64) by (unfold u64; apply Z.mod_pos_bound; done).
    rewrite IH by done. destruct (forallb _ l); [|done]. f_equal. apply dec_value_mod. unfold u64. apply Z.mod_mod. done.
Qed.

(* ---------- ids ---------- *)

Lemma hex_value_digit c d : hex_value c = Some d <-> IdSpec.hex_digit c d.
Proof.
  unfold hex_value. split.
  - destruct ((48 <=? c) && (c <=? 57)) eqn:E1. { intros [= <-]. replace c with (48 + (c - 48)) at 1 by lia. constructor; lia. }
    destruct ((97 <=? c) && (c <=? 102)) eqn:E2. { intros [= <-]. replace c with (97 + ((c - 87) - 10)) at 1 by lia. constructor; lia. }
    destruct ((65 <=? c) && (c <=? 70)) eqn:E3; [|done]. intros [= <-]. replace c with (65 + ((c - 55) - 10)) at 1 by lia. constructor; lia.
  - destruct 1 as [d H|d H|d H]; repeat (case_match; try lia); f_equal; lia.
Qed.

Lemma traverse_hex s ds : traverse hex_value s = Some ds <-> Forall2 IdSpec.hex_digit s ds.
Proof.
  revert ds. induction s as [|c s IH]; intros ds; cbn [traverse].
  - split; [intros [= <-]; constructor|by inversion 1].
  - split.
    + destruct (hex_value c) eqn:E; [|done]. destruct (traverse hex_value s) eqn:E2; [|done]. intros [= <-].
      constructor; [by apply hex_value_digit|by apply IH].
    + inversion 1 as [|? ? ? ? H1 H2]; subst. apply hex_value_digit in H1. rewrite H1. apply IH in H2. by rewrite H2.
Qed.

Lemma value16_bound ds s : Forall2 IdSpec.hex_digit s ds -> (length s <= 16)%nat -> 0 <= value16 ds < 2^64.
Proof.
  intros H Hl. assert (K : forall s ds, Forall2 IdSpec.hex_digit s ds -> 0 <= value16 ds < 16 ^ Z.of_nat (length s)).
  { induction 1 as [|c d s' ds' Hd Hs IH]; cbn [value16 length]; [done|]. rewrite <- (Forall2_length _ _ _ Hs).
    rewrite Nat2Z.inj_succ, Z.pow_succ_r by lia. assert (0 <= d <= 15) by (destruct Hd; lia). nia. }
  specialize (K _ _ H). assert (16 ^ Z.of_nat (length s) <= 16 ^ 16) by (apply Z.pow_le_mono_r; lia). change (16^16) with (2^64) in *. lia.
Qed.

Lemma parse_id_text s : parse_id s = id_text s.
Proof.
  unfold id_text. destruct (parse_id s) as [v|] eqn:E.
  - apply parse_id_spec in E as [Hl (n & (ds & Hds & ->) & Hv)]. replace (16 <? length s)%nat with false by lia.
    pose proof (value16_bound _ _ Hds Hl) as Hb. apply traverse_hex in Hds. rewrite Hds. cbn [option_map]. f_equal.
    destruct Hv as [Hr Hm]. unfold signed. destruct (Z.ltb_spec (value16 ds) (2^63)); zlia.
  - destruct (Nat.ltb_spec 16 (length s)) as [Hl|Hl]; [done|]. destruct (traverse hex_value s) as [ds|] eqn:E2; [|done]. exfalso.
    apply traverse_hex in E2. pose proof (value16_bound _ _ E2 Hl) as Hb.
    assert (parse_id s = Some (signed (value16 ds))) as E3; [|congruence]. apply parse_id_spec. split; [done|]. exists (value16 ds). split; [by exists ds|].
    unfold signed64, signed. destruct (Z.ltb_spec (value16 ds) (2^63)); split; try zlia.
Qed.

Section docs.
  Context (fuel cap m : nat) (Hm : (m <= cap)%nat).

  Definition decodes {T} (d : decoder T) (sem : T -> json -> option T) : Prop :=
    forall t v l w rest, loose m v l -> sep w -> delimited v rest -> (2 * length l + 2 < fuel)%nat ->
    match sem t v with
    | Some t' => q_exec fuel cap (d t) (w ++ l ++ rest) = YDone (t', true) rest
    | None => fails (q_exec fuel cap (d t) (w ++ l ++ rest))
    end.

  Lemma error_fails {A} o (k : token -> prog (A * bool)) a l : q_op fuel cap o l = QErr -> fails (q_exec fuel cap (Call o k (a, false)) l).
  Proof. intros E. cbn [q_exec]. rewrite E. eexists. by left. Qed.

  Lemma q_op_string v l w rest : loose m v l -> sep w ->
    q_op fuel cap OString (w ++ l ++ rest) = match v with JStr s => QOk (Token TString s) rest | _ => QErr end.
  Proof.
    intros H Hw. cbn [q_op]. erewrite q_space_text by done. cbn [qbind].
    destruct v; try (by eapply q_string_wrong).
    apply text_str in H as (raw & -> & Hs & Hl). cbn [app]. rewrite <- app_assoc. cbn [app]. apply q_string_text; [done|lia].
  Qed.

  Lemma q_op_number v l w rest : loose m v l -> sep w -> delimited v rest ->
    q_op fuel cap ONumber (w ++ l ++ rest) = match v with JNum s => QOk (Token TNumber s) rest | _ => QErr end.
  Proof.
    intros H Hw Hd. cbn [q_op]. erewrite q_space_text by done. cbn [qbind].
    destruct v; try (by eapply q_number_wrong).
    apply text_num in H as (-> & Hn & Hl). apply q_number_text; [done|lia|done].
  Qed.

  Lemma q_op_skip v l w rest : loose m v l -> sep w -> delimited v rest -> (2 * length l < fuel)%nat ->
    q_op fuel cap OSkip (w ++ l ++ rest) = QOk (Token TNull []) rest.
  Proof. intros H Hw Hd Hf. cbn [q_op]. erewrite q_Skip_text by done. done. Qed.

  Lemma q_op_next v l w rest : loose m v l -> sep w -> q_op fuel cap ONext (w ++ l ++ rest) = QOk (Token (kind v) []) (l ++ rest).
  Proof. intros H Hw. cbn [q_op]. erewrite q_next_text by done. done. Qed.

  Lemma q_op_next_char w b rest : sep w -> symbol b <> TSpace -> symbol b <> TError ->
    q_op fuel cap ONext (w ++ b :: rest) = QOk (Token (symbol b) []) (b :: rest).
  Proof. intros Hw H1 H2. cbn [q_op]. by rewrite q_next_char. Qed.

  Lemma q_consume_char ty w b rest : sep w -> symbol b = ty -> ty <> TSpace -> q_consume ty (w ++ b :: rest) = QOk tt rest.
  Proof. intros Hw H1 H2. unfold q_consume. rewrite q_space_char by (done || by rewrite H1). cbn [qbind q_consume1]. by rewrite decide_True. Qed.

  Lemma q_consume_wrong ty v l w rest : loose m v l -> sep w -> kind v <> ty -> q_consume ty (w ++ l ++ rest) = QErr.
  Proof. intros H Hw Hk. unfold q_consume. erewrite q_space_text by done. cbn [qbind]. by eapply q_consume1_wrong. Qed.

  Lemma q_consume_char0 ty b rest : symbol b = ty -> ty <> TSpace -> q_consume ty (b :: rest) = QOk tt rest.
  Proof. apply (q_consume_char ty [] b rest sep_nil). Qed.
  Lemma q_space_char0 b r : symbol b <> TSpace -> q_space (b :: r) = QOk tt (b :: r).
  Proof. apply (q_space_char [] b r sep_nil). Qed.

  Lemma decodes_string : decodes string_decoder (fun _ => as_str).
  Proof.
    intros t v l w rest H Hw Hd Hf. pose proof (q_op_string v l w rest H Hw) as E. destruct v; cbn [as_str]; try (by apply error_fails).
    unfold string_decoder. cbn [q_exec]. by rewrite E.
  Qed.

  Lemma decodes_any : decodes any_decoder (fun _ => as_text).
  Proof.
    intros t v l w rest H Hw Hd Hf. pose proof (q_literal_text cap m v l w rest H Hm Hw Hd) as E.
    destruct v; cbn [as_text]; try (by apply error_fails); unfold any_decoder; cbn [q_exec q_op]; try (by rewrite E). destruct E as [ty ->]. done.
  Qed.

  Lemma decodes_uint64 : decodes uint64_decoder (fun _ => as_uint).
  Proof.
    intros t v l w rest H Hw Hd Hf. pose proof (q_op_number v l w rest H Hw Hd) as E. destruct v; cbn [as_uint]; try (by apply error_fails).
    unfold uint64_decoder. cbn [q_exec]. rewrite E. cbn [t_val]. rewrite digits_value_spec by done.
    destruct (forallb _ _); cbn [q_exec]; [done|]. eexists. right. by eexists.
  Qed.

  Lemma as_id_null v : kind v = TNull -> as_id v = Some 0.
  Proof. destruct v as [| | |[|c l]| | | |]; cbn [kind as_id]; try done. by repeat case_match. Qed.
  Lemma as_id_other v : kind v <> TNull -> as_id v = match v with JStr s => id_text s | _ => None end.
  Proof. destruct v as [| | |[|c l]| | | |]; cbn [kind as_id]; try done. by repeat case_match. Qed.

  Lemma decodes_id : decodes id_decoder (fun _ => as_id).
  Proof.
    intros t v l w rest H Hw Hd Hf. unfold id_decoder. cbn [q_exec]. rewrite (q_op_next v l w rest) by done. cbn [t_type].
    destruct (decide (kind v = TNull)) as [Hk|Hk].
    - rewrite (as_id_null v Hk). cbn [q_exec]. pose proof (q_op_skip v l [] rest H sep_nil Hd ltac:(lia)) as E. cbn [app] in E. by rewrite E.
    - rewrite (as_id_other v Hk). pose proof (q_op_string v l [] rest H sep_nil) as E. cbn [app] in E. destruct v; try (by apply error_fails).
      cbn [q_exec]. rewrite E. cbn [t_val]. rewrite parse_id_text. destruct (id_text s); cbn [q_exec]; [done|]. eexists. right. by eexists.
  Qed.

  Definition at_sem {T A} (get : T -> A) (put : A -> T -> T) (sem : A -> json -> option A) : T -> json -> option T :=
    fun t v => option_map (fun a => put a t) (sem (get t) v).

  Lemma decodes_at_field {T A} (get : T -> A) put d sem : decodes d sem -> decodes (at_field get put d) (at_sem get put sem).
  Proof.
    intros Hd t v l w rest H Hw Hv Hf. unfold at_field, at_sem. rewrite q_exec_pthen. specialize (Hd (get t) v l w rest H Hw Hv Hf).
    destruct (sem (get t) v); cbn [option_map]; [by rewrite Hd|by apply ythen_fails].
  Qed.

  Lemma string_key t raw k rest : loose_string raw k -> (length raw < m)%nat ->
    q_exec fuel cap (string_decoder t) (34 :: raw ++ 34 :: rest) = YDone (k, true) rest.
  Proof.
    intros Hr Hl. unfold string_decoder. cbn [q_exec q_op]. rewrite (q_space_char0 34) by done. cbn [qbind].
    rewrite (q_string_text cap raw k) by (done || lia). done.
  Qed.

  (* ---------- objects ---------- *)

  Fixpoint map_fold (r : gmap gostring gostring) (ms : list (bytes * json)) : option (gmap gostring gostring) :=
    match ms with
    | [] => Some r
    | (k, v) :: ms' => match as_str v with Some s => map_fold (<[k := s]> r) ms' | None => None end
    end.

  Lemma map_fold_spec ms : forall r, map_fold r ms =
    option_map (fun l => foldl (fun m kv => <[kv.1 := kv.2]> m) r l) (traverse (fun kv => option_map (pair kv.1) (as_str kv.2)) ms).
  Proof.
    induction ms as [|[k v] ms IH]; intros r; cbn [map_fold traverse fst snd]; [done|].
    destruct (as_str v) as [s|]; cbn [option_map]; [|done]. rewrite IH. by destruct (traverse _ ms).
  Qed.

  Lemma map_loop_text target : forall ms l, loose_members m ms l -> forall n r rest, (length ms < n)%nat -> (2 * length l + 2 < fuel)%nat ->
    match map_fold r ms with
    | Some r' => q_exec fuel cap (map_loop n target r) (l ++ 125 :: rest) = YDone (r', true) rest
    | None => fails (q_exec fuel cap (map_loop n target r) (l ++ 125 :: rest))
    end.
  Proof.
    induction 1 as [w Hw|w raw k w' v l ms l' H1 H2 H3 H4 H5 H6 H7 IH]; intros n r rest Hn Hf; (destruct n as [|n]; [cbn in Hn; lia|]); cbn [map_loop q_exec map_fold].
    - rewrite q_op_next_char by (try done; by apply ws_sep). cbn [t_type].
      rewrite decide_True by done. cbn [q_exec q_op]. rewrite (q_consume_char0 TObjEnd 125 rest) by done. done.
    - lens. rewrite <- app_assoc. cbn [app]. rewrite q_op_next_char by (try done; by apply ws_sep). cbn [t_type]. rewrite decide_False by done.
      rewrite q_exec_pthen. rewrite <- app_assoc. cbn [app]. rewrite (string_key [] raw k) by done. cbn [ythen].
      rewrite q_exec_pthen, <- !app_assoc. apply (delimited_prefix v l' 125 rest) in H6.
      pose proof (decodes_string [] v l _ (l' ++ 125 :: rest) H5 (ws_sep _ H4) H6 ltac:(lia)) as E. cbv beta in E. destruct (as_str v) as [s|].
      + rewrite E. cbn [ythen]. apply IH; lia.
      + by apply ythen_fails.
  Qed.

  Lemma decodes_map : decodes (map_decoder fuel) (fun _ => as_map).
  Proof.
    intros t v l w rest H Hw Hd Hf. unfold map_decoder. destruct v; cbn [as_map].
    1-7: apply error_fails; cbn [q_op]; erewrite q_consume_wrong; [done|done|done|cbn [kind]; by repeat case_match].
    rename l0 into ms. apply text_obj in H as (l' & -> & H). cbn [q_exec q_op app]. rewrite q_consume_char by done. cbn [qbind].
    rewrite <- app_assoc. cbn [app]. lens. rewrite <- map_fold_spec. pose proof (members_count _ _ _ H). apply (map_loop_text t ms l' H fuel ∅ rest); lia.
  Qed.

  Notation sems T := (list (gostring * (T -> json -> option T))).
  Fixpoint lookup_sem {T} (ss : sems T) (name : gostring) : option (T -> json -> option T) :=
    match ss with [] => None | (n, s) :: ss' => if decide (n = name) then Some s else lookup_sem ss' name end.
  Fixpoint struct_fold {T} (ss : sems T) (t : T) (ms : list (bytes * json)) : option T :=
    match ms with
    | [] => Some t
    | (k, v) :: ms' =>
        match lookup_sem ss k with
        | None => struct_fold ss t ms'
        | Some s => match s t v with Some t' => struct_fold ss t' ms' | None => None end
        end
    end.
  Definition struct_sem {T} (ss : sems T) (t : T) (v : json) : option T :=
    match v with JObj ms => struct_fold ss t ms | _ => None end.

  Definition fields_decode {T} (fs : list (gostring * decoder T)) (ss : sems T) : Prop :=
    Forall2 (fun f s => f.1 = s.1 /\ decodes f.2 s.2) fs ss.

  Lemma fields_lookup {T} (fs : list (gostring * decoder T)) ss k : fields_decode fs ss ->
    match lookup_field fs k, lookup_sem ss k with Some d, Some s => decodes d s | None, None => True | _, _ => False end.
  Proof.
    induction 1 as [|[n d] [n' s] fs ss [E Hd] H IH]; cbn [lookup_field lookup_sem]; [done|]. cbn in E, Hd. subst n'. by destruct (decide (n = k)).
  Qed.

  Lemma struct_loop_text {T} (fs : list (gostring * decoder T)) ss : fields_decode fs ss ->
    forall ms l, loose_members m ms l -> forall n t rest, (length ms < n)%nat -> (2 * length l + 2 < fuel)%nat ->
    match struct_fold ss t ms with
    | Some r' => q_exec fuel cap (struct_loop fs n t) (l ++ 125 :: rest) = YDone (r', true) rest
    | None => fails (q_exec fuel cap (struct_loop fs n t) (l ++ 125 :: rest))
    end.
  Proof.
    intros Hfs. induction 1 as [w Hw|w raw k w' v l ms l' H1 H2 H3 H4 H5 H6 H7 IH]; intros n t rest Hn Hf; (destruct n as [|n]; [cbn in Hn; lia|]); cbn [struct_loop q_exec struct_fold].
    - rewrite q_op_next_char by (try done; by apply ws_sep). cbn [t_type].
      rewrite decide_True by done. cbn [q_exec q_op]. rewrite (q_consume_char0 TObjEnd 125 rest) by done. done.
    - lens. rewrite <- app_assoc. cbn [app]. rewrite q_op_next_char by (try done; by apply ws_sep). cbn [t_type]. rewrite decide_False by done.
      cbn [q_exec q_op]. rewrite (q_space_char0 34) by done. cbn [qbind]. rewrite <- app_assoc. cbn [app]. rewrite (q_string_text cap raw k) by (done || lia). cbn [t_val].
      rewrite <- !app_assoc. apply (delimited_prefix v l' 125 rest) in H6. apply ws_sep in H4.
      pose proof (fields_lookup fs ss k Hfs) as HL. destruct (lookup_field fs k) as [d|], (lookup_sem ss k) as [s|]; try done.
      + rewrite q_exec_pthen. specialize (HL t v l _ (l' ++ 125 :: rest) H5 H4 H6 ltac:(lia)). destruct (s t v).
        * rewrite HL. cbn [ythen]. apply IH; lia. * by apply ythen_fails.
      + cbn [q_exec]. rewrite (q_op_skip v l) by (done || lia). apply IH; lia.
  Qed.

  Lemma decodes_struct {T} (fs : list (gostring * decoder T)) ss : fields_decode fs ss -> decodes (struct_decoder fs fuel) (struct_sem ss).
  Proof.
    intros Hfs t v l w rest H Hw Hd Hf. unfold struct_decoder. destruct v; cbn [struct_sem].
    1-7: apply error_fails; cbn [q_op]; erewrite q_consume_wrong; [done|done|done|cbn [kind]; by repeat case_match].
    rename l0 into ms. apply text_obj in H as (l' & -> & H). cbn [q_exec q_op app]. rewrite q_consume_char by done. cbn [qbind].
    rewrite <- app_assoc. cbn [app]. lens. pose proof (members_count _ _ _ H). apply (struct_loop_text fs ss Hfs ms l' H fuel t rest); lia.
  Qed.

  (* ---------- arrays ---------- *)

  Fixpoint slice_fold {T} (zero : T) (sem : T -> json -> option T) (s : slice T) (idx : nat) (vs : list json) : option (slice T) :=
    match vs with
    | [] => Some s
    | v :: vs' =>
        let s := unsafe_grow zero s (idx + 1) in
        match sem (nth idx (sl_mem s) zero) v with
        | Some el => slice_fold zero sem (Slice (<[idx := el]> (sl_mem s)) (sl_len s)) (idx + 1) vs'
        | None => None
        end
    end.
  Definition slice_sem {T} (zero : T) sem (s : slice T) (v : json) : option (slice T) :=
    match v with JArr vs => slice_fold zero sem s 0 vs | _ => None end.

  Fixpoint array_fold {T} (sem : T -> json -> option T) (a : list T) (idx : nat) (vs : list json) : option (list T) :=
    match vs with
    | [] => Some a
    | v :: vs' =>
        match a !! idx with
        | Some el => match sem el v with Some el' => array_fold sem (<[idx := el']> a) (idx + 1) vs' | None => None end
        | None => array_fold sem a (idx + 1) vs'
        end
    end.
  Definition array_sem {T} sem (a : list T) (v : json) : option (list T) :=
    match v with JArr vs => array_fold sem a 0 vs | _ => None end.

  Lemma slice_loop_text {T} (zero : T) d sem : decodes d sem ->
    forall vs l, loose_elements m vs l -> forall n s idx rest, (length vs < n)%nat -> (2 * length l + 2 < fuel)%nat ->
    match slice_fold zero sem s idx vs with
    | Some s' => q_exec fuel cap (slice_loop zero d n s idx) (l ++ 93 :: rest) = YDone (s', true) rest
    | None => fails (q_exec fuel cap (slice_loop zero d n s idx) (l ++ 93 :: rest))
    end.
  Proof.
    intros Hdec. induction 1 as [w Hw|w v l vs l' H1 H2 H3 H4 IH]; intros n s idx rest Hn Hf; (destruct n as [|n]; [cbn in Hn; lia|]); cbn [slice_loop q_exec slice_fold].
    - rewrite q_op_next_char by (try done; by apply ws_sep). cbn [t_type].
      rewrite decide_True by done. cbn [q_exec q_op]. rewrite (q_consume_char0 TArrEnd 93 rest) by done. done.
    - lens. rewrite <- !app_assoc. rewrite (q_op_next v l) by (try done; by apply ws_sep). cbn [t_type]. destruct (kind_not_end v). rewrite decide_False by done.
      set (s1 := unsafe_grow zero s (idx + 1)). rewrite q_exec_pthen. apply (delimited_prefix v l' 93 rest) in H3.
      pose proof (Hdec (nth idx (sl_mem s1) zero) v l [] (l' ++ 93 :: rest) H2 sep_nil H3 ltac:(lia)) as E. cbn [app] in E.
      cbv zeta. destruct (sem (nth idx (sl_mem s1) zero) v).
      + rewrite E. cbn [ythen]. apply IH; lia.
      + by apply ythen_fails.
  Qed.

  Lemma decodes_slice {T} (zero : T) d sem : decodes d sem -> decodes (slice_decoder zero d fuel) (slice_sem zero sem).
  Proof.
    intros Hdec t v l w rest H Hw Hd Hf. unfold slice_decoder. destruct v; cbn [slice_sem].
    1-6,8: apply error_fails; cbn [q_op]; erewrite q_consume_wrong; [done|done|done|cbn [kind]; by repeat case_match].
    rename l0 into vs. apply text_arr in H as (l' & -> & H). cbn [q_exec q_op app]. rewrite q_consume_char by done. cbn [qbind].
    rewrite <- app_assoc. cbn [app]. lens. pose proof (elements_count _ _ _ H). apply (slice_loop_text zero d sem Hdec vs l' H fuel t 0%nat rest); lia.
  Qed.

  Lemma array_loop_text {T} (d : decoder T) sem : decodes d sem ->
    forall vs l, loose_elements m vs l -> forall n a idx rest, (length vs < n)%nat -> (2 * length l + 2 < fuel)%nat ->
    match array_fold sem a idx vs with
    | Some s' => q_exec fuel cap (array_loop d n a idx) (l ++ 93 :: rest) = YDone (s', true) rest
    | None => fails (q_exec fuel cap (array_loop d n a idx) (l ++ 93 :: rest))
    end.
  Proof.
    intros Hdec. induction 1 as [w Hw|w v l vs l' H1 H2 H3 H4 IH]; intros n a idx rest Hn Hf; (destruct n as [|n]; [cbn in Hn; lia|]); cbn [array_loop q_exec array_fold].
    - rewrite q_op_next_char by (try done; by apply ws_sep). cbn [t_type].
      rewrite decide_True by done. cbn [q_exec q_op]. rewrite (q_consume_char0 TArrEnd 93 rest) by done. done.
    - lens. rewrite <- !app_assoc. rewrite (q_op_next v l) by (try done; by apply ws_sep). cbn [t_type]. destruct (kind_not_end v). rewrite decide_False by done.
      apply (delimited_prefix v l' 93 rest) in H3. destruct (a !! idx) as [el|].
      + rewrite q_exec_pthen. pose proof (Hdec el v l [] (l' ++ 93 :: rest) H2 sep_nil H3 ltac:(lia)) as E. cbn [app] in E. destruct (sem el v).
        * rewrite E. cbn [ythen]. apply IH; lia. * by apply ythen_fails.
      + cbn [q_exec]. pose proof (q_op_skip v l [] (l' ++ 93 :: rest) H2 sep_nil H3 ltac:(lia)) as E. cbn [app] in E. rewrite E. apply IH; lia.
  Qed.

  Lemma decodes_array {T} (d : decoder T) sem : decodes d sem -> decodes (array_decoder d fuel) (array_sem sem).
  Proof.
    intros Hdec t v l w rest H Hw Hd Hf. unfold array_decoder. destruct v; cbn [array_sem].
    1-6,8: apply error_fails; cbn [q_op]; erewrite q_consume_wrong; [done|done|done|cbn [kind]; by repeat case_match].
    rename l0 into vs. apply text_arr in H as (l' & -> & H). cbn [q_exec q_op app]. rewrite q_consume_char by done. cbn [qbind].
    rewrite <- app_assoc. cbn [app]. lens. pose proof (elements_count _ _ _ H). apply (array_loop_text d sem Hdec vs l' H fuel t 0%nat rest); lia.
  Qed.

  (* ---------- the two formats ---------- *)

  Definition endpoint_sem : gostring -> json -> option gostring := struct_sem [(str "serviceName", fun _ => as_str)].
  Lemma decodes_endpoint : decodes (endpoint_decoder fuel) endpoint_sem.
  Proof. apply decodes_struct. repeat apply Forall2_cons_2; [|constructor]. split; [done|apply decodes_string]. Qed.

  Definition v2_sems : sems spanV2 :=
    [ (str "id", at_sem v2_id set_v2_id (fun _ => as_id));
      (str "traceId", at_sem v2_trace set_v2_trace (fun _ => as_id));
      (str "parentId", at_sem v2_parent set_v2_parent (fun _ => as_id));
      (str "timestamp", at_sem v2_ts set_v2_ts (fun _ => as_uint));
      (str "duration", at_sem v2_dur set_v2_dur (fun _ => as_uint));
      (str "name", at_sem v2_name set_v2_name (fun _ => as_str));
      (str "tags", at_sem v2_tags set_v2_tags (fun _ => as_map));
      (str "kind", at_sem v2_kind set_v2_kind (fun _ => as_str));
      (str "localEndpoint", at_sem v2_endpoint set_v2_endpoint endpoint_sem) ].

  Ltac each := repeat apply Forall2_cons_2; [..|constructor]; (split; [done|apply decodes_at_field]).

  Lemma decodes_span_v2 : decodes (span_v2_decoder fuel) (fun _ => struct_sem v2_sems zero_v2).
  Proof.
    intros t. assert (K : decodes (struct_decoder (v2_fields fuel) fuel) (struct_sem v2_sems)).
    { apply decodes_struct. unfold fields_decode, v2_fields, v2_sems. each; auto using decodes_id, decodes_uint64, decodes_string, decodes_map, decodes_endpoint. }
    intros v l w rest. apply (K zero_v2).
  Qed.

  Lemma decodes_v2 : decodes (slice_decoder zero_v2 (span_v2_decoder fuel) fuel) (slice_sem zero_v2 (fun _ => struct_sem v2_sems zero_v2)).
  Proof. apply decodes_slice, decodes_span_v2. Qed.

  Definition ba_sems : sems binaryAnnotationV1 :=
    [ (str "key", at_sem ba_key set_ba_key (fun _ => as_str));
      (str "value", at_sem ba_value set_ba_value (fun _ => as_text));
      (str "endpoint", at_sem ba_endpoint set_ba_endpoint endpoint_sem) ].
  Definition annot_sems : sems annotationV1 :=
    [ (str "timestamp", at_sem an_ts set_an_ts (fun _ => as_uint));
      (str "value", at_sem an_value set_an_value (fun _ => as_str));
      (str "endpoint", at_sem an_endpoint set_an_endpoint endpoint_sem) ].
  Definition v1_sems : sems spanV1 :=
    [ (str "id", at_sem v1_id set_v1_id (fun _ => as_id));
      (str "traceId", at_sem v1_trace set_v1_trace (fun _ => as_id));
      (str "parentId", at_sem v1_parent set_v1_parent (fun _ => as_id));
      (str "timestamp", at_sem v1_ts set_v1_ts (fun _ => as_uint));
      (str "duration", at_sem v1_dur set_v1_dur (fun _ => as_uint));
      (str "name", at_sem v1_name set_v1_name (fun _ => as_str));
      (str "binaryAnnotations", at_sem v1_bas set_v1_bas (slice_sem zero_ba (struct_sem ba_sems)));
      (str "annotations", at_sem v1_annots set_v1_annots (array_sem (struct_sem annot_sems))) ].

  Lemma decodes_span_v1 : decodes (span_v1_decoder fuel) (fun t => struct_sem v1_sems (reset_v1 t)).
  Proof.
    intros t. assert (K : decodes (struct_decoder (v1_fields fuel) fuel) (struct_sem v1_sems)).
    { apply decodes_struct. unfold fields_decode, v1_fields, v1_sems. each; auto using decodes_id, decodes_uint64, decodes_string.
      - apply decodes_slice, decodes_struct. unfold fields_decode, ba_fields, ba_sems. each; auto using decodes_string, decodes_any, decodes_endpoint.
      - apply decodes_array, decodes_struct. unfold fields_decode, annot_fields, annot_sems. each; auto using decodes_string, decodes_uint64, decodes_endpoint. }
    intros v l w rest. apply (K (reset_v1 t)).
  Qed.

  Lemma decodes_v1 : decodes (slice_decoder zero_v1 (span_v1_decoder fuel) fuel) (slice_sem zero_v1 (fun t => struct_sem v1_sems (reset_v1 t))).
  Proof. apply decodes_slice, decodes_span_v1. Qed.
End docs.
