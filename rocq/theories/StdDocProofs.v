(** Proofs about Jaeger documents decoded by encoding/json. *)
From Verif Require Import Base IdModel IdSpec IdProofs JsonModel JsonSpec CodecModel DocSpec DocSem DocProofs JaegerModel StdJsonModel StdJsonSpec StdJsonProofs StdTextProofs.

(* ---------- numbers ---------- *)
Lemma dec_value_grows l : forall acc, 0 <= acc -> forallb (fun c => (48 <=? c) && (c <=? 57)) l = true -> acc <= dec_value acc l.
Proof.
  induction l as [|c l IH]; intros acc Ha H; cbn [dec_value forallb] in *; [lia|]. apply andb_true_iff in H as [Hc H].
  etransitivity; [|apply IH; [lia|done]]. lia.
Qed.
Lemma parse_uint_value l : forall acc, 0 <= acc < 2^64 ->
  parse_uint acc l = if forallb (fun c => (48 <=? c) && (c <=? 57)) l then if dec_value acc l <? 2^64 then Some (dec_value acc l) else None else None.
Proof.
  induction l as [|c l IH]; intros acc Ha; cbn [parse_uint forallb dec_value].
  { destruct (Z.ltb_spec acc (2^64)); [done|lia]. }
  unfold dec_digit. destruct ((48 <=? c) && (c <=? 57)) eqn:Ec; [|done]. cbn [andb].
  destruct (Z.leb_spec (2^64) (acc * 10 + (c - 48))).
  - destruct (forallb _ l) eqn:El; [|done]. pose proof (dec_value_grows l (acc * 10 + (c - 48)) ltac:(lia) El).
    destruct (Z.ltb_spec (dec_value (acc * 10 + (c - 48)) l) (2^64)); [lia|done].
  - apply IH. lia.
Qed.

(** Digits one after the other. *)
Lemma dec_value_app l1 : forall acc l2, dec_value acc (l1 ++ l2) = dec_value (dec_value acc l1) l2.
Proof. induction l1 as [|c l1 IH]; intros acc l2; [done|]. cbn [app dec_value]. apply IH. Qed.
Definition all_digits (l : bytes) : Prop := Forall (fun c => 48 <= c <= 57) l.
Lemma dec_value_bounds l : all_digits l -> forall acc, 0 <= acc -> acc * 10 ^ Z.of_nat (length l) <= dec_value acc l < (acc + 1) * 10 ^ Z.of_nat (length l).
Proof.
  induction 1 as [|c l Hc H IH]; intros acc Ha; cbn [length dec_value]; [cbn; lia|].
  rewrite Nat2Z.inj_succ, Z.pow_succ_r by lia. specialize (IH (acc * 10 + (c - 48)) ltac:(lia)). nia.
Qed.
Lemma float_digits_plain p n : forall l d f, all_digits l -> float_digits p d f (l ++ n) =
  float_digits p (dec_value d l) (if p then f + Z.of_nat (length l) else f) n.
Proof.
  intros l d f H. revert d f. induction H as [|c l Hc H IH]; intros d f; cbn [app length float_digits dec_value].
  { destruct p; [by rewrite Z.add_0_r|done]. }
  destruct (Z.eqb_spec c 46); [lia|]. destruct (Z.eqb_spec c 101); [lia|]. destruct (Z.eqb_spec c 69); [lia|]. cbn [orb].
  rewrite IH. f_equal. destruct p; [lia|done].
Qed.
Lemma float_exponent_small l : all_digits l -> forall e, 0 <= e -> dec_value e l < 10000 \/ l = [] -> float_exponent e l = dec_value e l.
Proof.
  induction 1 as [|c l Hc H IH]; intros e He Hd; [done|]. cbn [float_exponent dec_value] in *. destruct Hd as [Hd|]; [|done].
  assert (e * 10 + (c - 48) <= dec_value (e * 10 + (c - 48)) l).
  { apply dec_value_grows; [lia|]. apply forallb_forall. intros x Hx. rewrite Forall_forall in H. specialize (H x ltac:(by apply elem_of_list_In)). lia. }
  destruct (Z.ltb_spec e 10000); [|lia]. apply IH; [lia|by left].
Qed.
(** A long exponent is cut, but not below 10000. *)
Lemma float_exponent_bounds l : all_digits l -> forall e, 0 <= e -> e <= float_exponent e l <= dec_value e l /\ (10000 <= dec_value e l -> 10000 <= float_exponent e l).
Proof.
  induction 1 as [|c l Hc H IH]; intros e He; cbn [float_exponent dec_value]; [lia|].
  assert (e * 10 + (c - 48) <= dec_value (e * 10 + (c - 48)) l).
  { apply dec_value_grows; [lia|]. apply forallb_forall. intros x Hx. rewrite Forall_forall in H. specialize (H x ltac:(by apply elem_of_list_In)). lia. }
  destruct (Z.ltb_spec e 10000).
  - specialize (IH (e * 10 + (c - 48)) ltac:(lia)). lia.
  - destruct (IH e He) as [Ha Hb]. split; [|lia]. split; [lia|].
    etransitivity; [apply Ha|]. clear -H He Hc. assert (Hm : forall a b, 0 <= a <= b -> dec_value a l <= dec_value b l).
    { clear e He. induction H as [|x l Hx H IH]; intros a b Hab; cbn [dec_value]; [lia|]. apply IH. lia. }
    apply Hm. lia.
Qed.
Lemma float_limit_big : 10 <= float_limit.
Proof. unfold float_limit. assert (2^970 * 2 ^ 54 = 2^1024) by (rewrite <- Z.pow_add_r by lia; done). assert (0 < 2^970) by (apply Z.pow_pos_nonneg; lia). nia. Qed.
Lemma is_double_fits l : is_double l -> float_overflow l = false.
Proof.
  intros (Hlen & m & i & f & e & -> & Hm & (Hi & Hi0) & fd & Hf & x & He & Hv). rewrite !app_length in Hlen.
  assert (Hhd : exists c i', i = c :: i' /\ 48 <= c <= 57) by (destruct i as [|c i']; [done|]; inversion Hi; subst; by exists c, i').
  unfold float_overflow.
  assert (E : match m ++ i ++ f ++ e with c :: r => if c =? 45 then r else m ++ i ++ f ++ e | [] => [] end = i ++ f ++ e).
  { destruct Hm as [->| ->]; [|done]. destruct Hhd as (c & i' & -> & Hc). cbn [app]. destruct (Z.eqb_spec c 45); [lia|done]. }
  rewrite E. clear E. rewrite float_digits_plain by done.
  assert (Ed : exists p, float_digits false (dec_value 0 i) 0 (f ++ e) = float_digits p (dec_value 0 (i ++ fd)) (Z.of_nat (length fd)) e /\ all_digits fd).
  { destruct Hf as [[-> ->]|[-> [Hfd _]]].
    - exists false. split; [|constructor]. by rewrite app_nil_r.
    - exists true. split; [|done]. cbn [app float_digits]. change (46 =? 46) with true. cbn iota. rewrite float_digits_plain by done.
      rewrite dec_value_app. f_equal. }
  destruct Ed as (p & -> & Hfd). clear Hm Hhd. set (D := dec_value 0 (i ++ fd)) in *.
  assert (HD : 0 <= D < 10 ^ (Z.of_nat (length i) + Z.of_nat (length fd))).
  { pose proof (dec_value_bounds (i ++ fd) ltac:(by apply Forall_app) 0 ltac:(lia)) as Hb. rewrite app_length, Nat2Z.inj_add in Hb. unfold D. lia. }
  assert (Hlen' : Z.of_nat (length i) + Z.of_nat (length fd) < 10000) by (destruct Hf as [[-> ->]|[-> _]]; cbn [length] in *; lia).
  clear Hf Hlen. assert (Ex : exists x', float_digits p D (Z.of_nat (length fd)) e = (D, Z.of_nat (length fd), x') /\
    (0 <= x' <= x \/ x' = x \/ x <= 0 /\ x' <= -10000)).
  { destruct He as [[-> ->]|(c & s & d & -> & Hc & [Hd Hd0] & Hs)]; [exists 0; split; [done|lia]|].
    cbn [app float_digits]. replace (c =? 46) with false by lia. replace ((c =? 101) || (c =? 69)) with true by lia. cbn iota.
    destruct (float_exponent_bounds d Hd 0 ltac:(lia)) as [Hb1 Hb2].
    destruct Hs as [[-> ->]|[[->| ->] ->]]; cbn [app].
    - change (45 =? 45) with true. cbn iota. eexists. split; [reflexivity|].
      destruct (decide (dec_value 0 d < 10000)) as [Hsm|Hbig]; [rewrite float_exponent_small by (first [done|lia|by left]); lia|lia].
    - destruct d as [|y d]; [done|]. assert (48 <= y <= 57) by (by inversion Hd). destruct (Z.eqb_spec y 45); [lia|]. destruct (Z.eqb_spec y 43); [lia|].
      eexists. split; [reflexivity|]. lia.
    - change (43 =? 45) with false. change (43 =? 43) with true. cbn iota. eexists. split; [reflexivity|]. lia. }
  destruct Ex as (x' & -> & Hx'). clear He. set (F := Z.of_nat (length fd)) in *. assert (0 <= F) by (unfold F; lia). cbv zeta.
  change (2^1024 - 2^970) with float_limit in Hv. pose proof float_limit_big as HL. set (L := float_limit) in *. clearbody L D F.
  assert (Hp : forall a, 0 <= a -> 0 < 10 ^ a) by (intros; apply Z.pow_pos_nonneg; lia).
  assert (Hk : D * 10 ^ Z.max 0 x' < L * 10 ^ (F + Z.max 0 (- x'))).
  { destruct Hx' as [Hx'|[->|[Hx Hx']]]; [|done|].
    - replace (Z.max 0 x') with x' by lia. replace (Z.max 0 (- x')) with 0 by lia. replace (Z.max 0 x) with x in Hv by lia. replace (Z.max 0 (- x)) with 0 in Hv by lia.
      assert (10 ^ x' <= 10 ^ x) by (apply Z.pow_le_mono_r; lia). nia.
    - replace (Z.max 0 x') with 0 by lia. rewrite Z.pow_0_r, Z.mul_1_r.
      assert (10 ^ (Z.of_nat (length i) + F) <= 10 ^ (F + Z.max 0 (- x'))) by (apply Z.pow_le_mono_r; lia).
      specialize (Hp (F + Z.max 0 (- x')) ltac:(lia)). nia. }
  destruct (Z.ltb_spec (x' - F) 0).
  - apply Z.leb_gt. destruct (decide (0 <= x')).
    + replace (Z.max 0 x') with x' in Hk by lia. replace (F + Z.max 0 (- x')) with (- (x' - F) + x') in Hk by lia.
      rewrite Z.pow_add_r in Hk by lia. specialize (Hp x' ltac:(lia)). nia.
    + replace (Z.max 0 x') with 0 in Hk by lia. replace (F + Z.max 0 (- x')) with (- (x' - F)) in Hk by lia. lia.
  - apply Z.leb_gt. replace (Z.max 0 x') with (x' - F + F) in Hk by lia. replace (F + Z.max 0 (- x')) with F in Hk by lia.
    rewrite Z.pow_add_r in Hk by lia. specialize (Hp F ltac:(lia)). nia.
Qed.

(* ---------- ids ---------- *)
Lemma unmarshal_quoted raw : id_unmarshal_json (34 :: raw ++ [34]) = parse_id raw.
Proof.
  destruct (parse_id raw) as [v|] eqn:E; [apply unmarshal_spec; by exists raw|].
  destruct (id_unmarshal_json _) as [v|] eqn:E2; [|done]. apply unmarshal_spec in E2 as (t & Et & Ht).
  injection Et as Et. apply app_inj_tail in Et as [<- _]. congruence.
Qed.
Lemma json_string_hex raw s : parse_id raw <> None -> json_string raw s -> s = raw.
Proof.
  rewrite parse_id_text. unfold id_text. destruct (16 <? length raw)%nat; [done|].
  intros H. assert (Hh : traverse hex_value raw <> None) by (by destruct (traverse hex_value raw)). clear H. revert s Hh.
  induction raw as [|c raw IH]; intros s Hh Hj; [by inversion Hj|]. cbn [traverse] in Hh.
  assert (Hc : c <> 92) by (intros ->; done). destruct (hex_value c); [|done]. inversion Hj; subst; try done. f_equal. apply IH; [|done].
  by destruct (traverse hex_value raw).
Qed.
Lemma number_not_quoted l : rfc_number l -> head l <> Some 34.
Proof.
  intros (m & i & f & e & -> & Hm & Hi & _). destruct Hm as [->| ->]; [|done].
  destruct Hi as [->|[[Hd Hn] _]]; [done|]. destruct i as [|c i]; [done|]. inversion Hd; subst. cbn. intros E. injection E as ->. lia.
Qed.
Lemma unmarshal_unquoted l : head l <> Some 34 -> id_unmarshal_json l = None.
Proof.
  intros H. destruct (id_unmarshal_json l) as [v|] eqn:E; [|done]. apply unmarshal_spec in E as (t & -> & _). by destruct H.
Qed.
Lemma store_id_means t v old : means plain_ids t v -> store_id t old = as_ident v.
Proof.
  intros H. destruct H as [| | |l Hl|raw s Hj Hu Hp|ts vs H|ms vs H]; cbn [store_id as_ident]; try done.
  - by apply unmarshal_unquoted, number_not_quoted.
  - rewrite unmarshal_quoted. destruct (id_text s) as [i|] eqn:Ei.
    + rewrite Hp by (by rewrite Ei). by rewrite parse_id_text.
    + destruct (parse_id raw) eqn:Er; [|done]. apply json_string_hex in Hj; [|by rewrite Er]. subst s. rewrite <- parse_id_text in Ei. congruence.
Qed.

(* ---------- values ---------- *)
Definition nonnull (v : json) : bool := match v with JNull => false | _ => true end.
Definition or_old {A} (f : json -> option A) (v : json) (old : A) : option A := match v with JNull => Some old | _ => f v end.
Lemma store_string_means P t v old : means P t v -> store_string t old = or_old as_str v old.
Proof. intros H. destruct H as [| | |l Hl|raw s Hj Hu Hp|ts vs H|ms vs H]; cbn; try done. f_equal. by eapply unquote_meaning. Qed.
Lemma store_uint_means P t v old : means P t v -> store_uint t old = or_old as_u64 v old.
Proof. intros H. destruct H as [| | |l Hl|raw s Hj Hu Hp|ts vs H|ms vs H]; cbn; try done. by rewrite parse_uint_value by lia. Qed.
Lemma interface_means P :
  (forall t v, means P t v -> doubles v -> interface_ok t = true) /\
  (forall ts vs, means_all P ts vs -> Forall doubles vs -> forallb interface_ok ts = true) /\
  (forall ms vs, means_members P ms vs -> Forall (fun m => doubles m.2) vs -> forallb (fun m => interface_ok m.2) ms = true).
Proof.
  apply means_mutind; intros; try done; cbn [interface_ok forallb snd].
  - rewrite is_double_fits; [done|]. by inversion H.
  - apply H. by inversion H0.
  - apply H. by inversion H0.
  - inversion H1; subst. by rewrite H, H0.
  - inversion H1; subst. cbn in *. by rewrite H, H0.
Qed.
Lemma store_interface_means P t v old : means P t v -> doubles v -> store_interface t old = as_tag_value v.
Proof.
  intros H Hd. unfold store_interface. destruct (interface_means P) as [Hi _]. rewrite (Hi t v) by done.
  destruct H as [| | |l Hl|raw s Hj Hu Hp|ts vs H|ms vs H]; try done. cbn. do 2 f_equal. by eapply unquote_meaning.
Qed.

(* ---------- one field after the other ---------- *)
Fixpoint runs {T} (store : tree -> T -> option T) (l : list tree) (old : T) : option T :=
  match l with
  | [] => Some old
  | t :: l' => match store t old with Some x => runs store l' x | None => None end
  end.
Definition sel (k : gostring) (ms : list (bytes * tree)) : list tree :=
  map snd (List.filter (fun m => bool_decide (fold_case (unquote 0 m.1) = k)) ms).
Lemma sel_cons k raw t ms : sel k ((raw, t) :: ms) = if decide (fold_case (unquote 0 raw) = k) then t :: sel k ms else sel k ms.
Proof. unfold sel. cbn [List.filter fst]. case_bool_decide; destruct (decide _); done. Qed.
Lemma named_cons k n v ms : named k ((n, v) :: ms) = if decide (fold_case n = k) then v :: named k ms else named k ms.
Proof. unfold named. cbn [List.filter fst]. case_bool_decide; destruct (decide _); done. Qed.
Lemma sel_named P k ms vs : means_members P ms vs -> Forall2 (means P) (sel k ms) (named k vs).
Proof.
  induction 1 as [|raw n t v ms vs Hj Hu H Hr IH]; [constructor|]. rewrite sel_cons, named_cons.
  erewrite (unquote_meaning _ raw n) by done. destruct (decide (fold_case n = k)); [by constructor|done].
Qed.
Lemma last_of_cons {A} (f : json -> option A) d v l : last_of f d (v :: l) = match f v with Some x => last_of f x l | None => None end.
Proof. unfold last_of. cbn [traverse]. destruct (f v) as [x|]; [|done]. destruct (traverse f l); [|done]. cbn [option_map]. by rewrite last_cons. Qed.
Lemma runs_present {A} P (Q : json -> Prop) (store : tree -> A -> option A) f ts vs : (forall t v old, means P t v -> Q v -> store t old = or_old f v old) ->
  Forall2 (means P) ts vs -> Forall Q vs -> forall old, runs store ts old = last_of f old (List.filter nonnull vs).
Proof.
  intros Hs. induction 1 as [|t v ts vs H Hr IH]; intros HQ old; [done|]. inversion_clear HQ. cbn [runs List.filter]. rewrite (Hs t v old) by done.
  destruct (nonnull v) eqn:En.
  - rewrite last_of_cons. replace (or_old f v old) with (f v) by (by destruct v). destruct (f v); [by apply IH|done].
  - destruct v; try done. cbn. by apply IH.
Qed.
Lemma runs_named {A} P (Q : json -> Prop) (store : tree -> A -> option A) f ts vs : (forall t v old, means P t v -> Q v -> store t old = f v) ->
  Forall2 (means P) ts vs -> Forall Q vs -> forall old, runs store ts old = last_of f old vs.
Proof.
  intros Hs. induction 1 as [|t v ts vs H Hr IH]; intros HQ old; [done|]. inversion_clear HQ. cbn [runs]. rewrite (Hs t v old) by done.
  rewrite last_of_cons. destruct (f v); [by apply IH|done].
Qed.

(* ---------- slices ---------- *)
Fixpoint fresh {T} (store : tree -> T -> option T) (zero : T) (l : list tree) : option (list T) :=
  match l with
  | [] => Some []
  | t :: l' => match store t zero with Some x => option_map (cons x) (fresh store zero l') | None => None end
  end.
Lemma nth_replicate {T} (zero : T) k : nth 0 (replicate k zero) zero = zero.
Proof. by destruct k. Qed.
Lemma insert_next {T} (els : list T) (zero x : T) k : <[length els := x]> (els ++ replicate (S k) zero) = (els ++ [x]) ++ replicate k zero.
Proof. rewrite insert_app_r_alt by lia. rewrite Nat.sub_diag. cbn. by rewrite <- app_assoc. Qed.
Lemma store_elements_fresh {T} (zero : T) store l : forall els k,
  option_map sl_list (store_elements zero store (length els) l (Slice (els ++ replicate k zero) (length els))) =
  option_map (app els) (fresh store zero l).
Proof.
  induction l as [|t l IH]; intros els k.
  { cbn [store_elements fresh option_map]. rewrite app_nil_r. destruct els as [|e els]; [done|]. cbn [length].
    destruct (Nat.ltb_spec (S (length els)) (sl_len (Slice ((e :: els) ++ replicate k zero) (S (length els))))) as [Hl|_]; [cbn in Hl; lia|].
    unfold sl_list. cbn [sl_len sl_mem]. f_equal. change (S (length els)) with (length (e :: els)). by rewrite take_app. }
  cbn [store_elements fresh]. cbv zeta.
  assert (E : exists k', grow_for zero (Slice (els ++ replicate k zero) (length els)) (length els) = Slice (els ++ replicate (S k') zero) (length els + 1)).
  { unfold grow_for. cbn [sl_mem sl_len]. rewrite app_length, replicate_length. destruct k as [|k].
    - replace (length els + 0 <=? length els)%nat with true by (symmetry; apply Nat.leb_le; lia). cbn [sl_len sl_mem]. rewrite Nat.leb_refl.
      cbn [replicate]. rewrite app_nil_r, take_ge by lia. rewrite Nat.add_0_r.
      exists (Nat.max (length els + length els / 2) 4 - length els - 1)%nat. f_equal. f_equal. rewrite <- replicate_S. f_equal.
      assert (length els < Nat.max (length els + length els / 2) 4)%nat; [|lia].
      destruct (decide (length els < 2)%nat); [lia|]. assert (1 <= length els / 2)%nat by (apply Nat.div_le_lower_bound; lia). lia.
    - replace (length els + S k <=? length els)%nat with false by (symmetry; apply Nat.leb_gt; lia). cbn [sl_len sl_mem]. rewrite Nat.leb_refl. by exists k. }
  destruct E as (k' & ->). cbn [sl_mem sl_len].
  rewrite app_nth2, Nat.sub_diag, nth_replicate by lia. destruct (store t zero) as [x|]; [|done].
  rewrite insert_next. specialize (IH (els ++ [x]) k'). rewrite app_length in IH. cbn [length] in IH. rewrite IH.
  destruct (fresh store zero l); [|done]. cbn [option_map]. by rewrite <- app_assoc.
Qed.
Lemma fresh_means {T B} P (Q : json -> Prop) (store : tree -> T -> option T) zero (view : T -> B) f ts vs :
  (forall t v, means P t v -> Q v -> option_map view (store t zero) = f v) -> means_all P ts vs -> Forall Q vs ->
  option_map (map view) (fresh store zero ts) = traverse f vs.
Proof.
  intros Hs. induction 1 as [|t v ts vs H Hr IH]; intros HQ; [done|]. inversion_clear HQ. cbn [fresh traverse]. rewrite <- (Hs t v) by done.
  destruct (store t zero) as [x|]; [|done]. cbn [option_map]. rewrite <- IH by done. by destruct (fresh store zero ts).
Qed.
(** A slice that is given at most once. *)
Lemma runs_slice {T B} P (Q : json -> Prop) (store : tree -> T -> option T) zero (view : T -> B) f ts vs :
  (forall t v, means P t v -> Q v -> option_map view (store t zero) = f v) -> Forall2 (means P) ts vs ->
  Forall (fun v => forall l, v = JArr l -> Forall Q l) vs -> (length vs <= 1)%nat ->
  option_map (fun s => map view (sl_list s)) (runs (store_slice zero store) ts (Slice [] 0)) =
  last_of as_arr [] (List.filter nonnull vs) ≫= traverse f.
Proof.
  intros Hs H HQ Hl. destruct H as [|t v ts vs H Hr]; [done|]. destruct Hr; [|cbn in Hl; lia]. cbn [runs List.filter]. inversion_clear HQ as [|? ? HQv _].
  destruct H as [| | |l Hl'|raw s Hj Hu Hp|ts vs H|ms vs H]; try done. cbn [nonnull store_slice]. rewrite last_of_cons. cbn [as_arr].
  change (last_of as_arr vs []) with (Some vs). cbn [mbind option_bind]. rewrite <- (fresh_means P Q store zero view f ts vs) by (first [done|by apply HQv]).
  pose proof (store_elements_fresh zero store ts [] 0) as E. cbn [length app replicate] in E.
  destruct (store_elements zero store 0 ts (Slice [] 0)) as [s|]; destruct (fresh store zero ts) as [l|]; try done.
  cbn in E |- *. by injection E as ->.
Qed.

(* ---------- structs ---------- *)
Ltac key_cases k :=
  match goal with
  | |- context [bool_decide (k = ?n)] => destruct (decide (k = n)) as [->|?]; [rewrite (bool_decide_true (n = n)) by reflexivity|rewrite (bool_decide_false (k = n)) by assumption]
  end.
Ltac fold_names := rewrite !equal_fold_spec by reflexivity.
Ltac all_runs :=
  repeat match goal with
  | |- context [runs ?s ?l ?d] => destruct (runs s l d); cbn [mbind option_bind]; try done
  end.
Ltac one_step :=
  repeat rewrite decide_False by (first [assumption|discriminate]); rewrite ?decide_True by reflexivity; cbn [runs]; unfold within; cbv beta.

Lemma tag_runs ms : forall t, store_members tag_fields ms t =
  key ← runs store_string (sel (str "key") ms) (jt_key t);
  value ← runs store_interface (sel (str "value") ms) (jt_value t);
  Some (JTag key value).
Proof.
  induction ms as [|[raw v] ms IH]; intros t; [by destruct t|]. cbn [store_members]. remember (store_members tag_fields) as F eqn:HF. clear HF.
  unfold tag_fields. cbn [find_field]. fold_names. rewrite !sel_cons. set (n := fold_case (unquote 0 raw)). clearbody n.
  key_cases n; [|key_cases n].
  - one_step. destruct (store_string v (jt_key t)); cbn [mbind option_bind]; [rewrite IH; done|all_runs; done].
  - one_step. destruct (store_interface v (jt_value t)); cbn [mbind option_bind]; [rewrite IH; done|all_runs; done].
  - one_step. apply IH.
Qed.
Lemma ref_runs ms : forall r, store_members ref_fields ms r =
  type ← runs store_string (sel (str "reftype") ms) (jr_type r);
  id ← runs store_id (sel (str "spanid") ms) (jr_span r);
  Some (JRef type id).
Proof.
  induction ms as [|[raw v] ms IH]; intros t; [by destruct t|]. cbn [store_members]. remember (store_members ref_fields) as F eqn:HF. clear HF.
  unfold ref_fields. cbn [find_field]. fold_names. rewrite !sel_cons. set (n := fold_case (unquote 0 raw)). clearbody n.
  key_cases n; [|key_cases n].
  - one_step. destruct (store_string v (jr_type t)); cbn [mbind option_bind]; [rewrite IH; done|all_runs; done].
  - one_step. destruct (store_id v (jr_span t)); cbn [mbind option_bind]; [rewrite IH; done|all_runs; done].
  - one_step. apply IH.
Qed.
Notation store_refs := (store_slice zero_ref (store_struct ref_fields)).
Notation store_tags := (store_slice zero_tag (store_struct tag_fields)).
Lemma span_runs ms : forall s, store_members span_fields ms s =
  trace ← runs store_id (sel (str "traceid") ms) (ms_trace s);
  id ← runs store_id (sel (str "spanid") ms) (ms_id s);
  name ← runs store_string (sel (str "operationname") ms) (ms_operation s);
  refs ← runs store_refs (sel (str "references") ms) (ms_refs s);
  ts ← runs store_uint (sel (str "starttime") ms) (ms_ts s);
  dur ← runs store_uint (sel (str "duration") ms) (ms_dur s);
  process ← runs store_string (sel (str "processid") ms) (ms_process s);
  tags ← runs store_tags (sel (str "tags") ms) (ms_tags s);
  Some (MSpan trace id name refs ts dur process tags).
Proof.
  induction ms as [|[raw v] ms IH]; intros s; [by destruct s|]. cbn [store_members]. remember (store_members span_fields) as F eqn:HF. clear HF.
  unfold span_fields. cbn [find_field]. fold_names. rewrite !sel_cons. set (n := fold_case (unquote 0 raw)). clearbody n.
  revert IH. generalize (store_slice zero_ref (store_struct ref_fields)) (store_slice zero_tag (store_struct tag_fields)). intros srefs stags IH.
  key_cases n; [|key_cases n; [|key_cases n; [|key_cases n; [|key_cases n; [|key_cases n; [|key_cases n; [|key_cases n]]]]]]].
  - one_step. destruct (store_id v (ms_trace s)); cbn [mbind option_bind]; [rewrite IH; done|all_runs; done].
  - one_step. destruct (store_id v (ms_id s)); cbn [mbind option_bind]; [rewrite IH; done|all_runs; done].
  - one_step. destruct (store_string v (ms_operation s)); cbn [mbind option_bind]; [rewrite IH; done|all_runs; done].
  - one_step. destruct (srefs v (ms_refs s)); cbn [mbind option_bind]; [rewrite IH; done|all_runs; done].
  - one_step. destruct (store_uint v (ms_ts s)); cbn [mbind option_bind]; [rewrite IH; done|all_runs; done].
  - one_step. destruct (store_uint v (ms_dur s)); cbn [mbind option_bind]; [rewrite IH; done|all_runs; done].
  - one_step. destruct (store_string v (ms_process s)); cbn [mbind option_bind]; [rewrite IH; done|all_runs; done].
  - one_step. destruct (stags v (ms_tags s)); cbn [mbind option_bind]; [rewrite IH; done|all_runs; done].
  - one_step. apply IH.
Qed.
Notation store_spans := (store_slice zero_mspan (store_struct span_fields)).
Notation store_procs := (store_map [] (store_struct process_fields)).
Lemma data_runs ms : forall d, store_members data_fields ms d =
  spans ← runs store_spans (sel (str "spans") ms) (md_spans d);
  procs ← runs store_procs (sel (str "processes") ms) (md_procs d);
  Some (MData spans procs).
Proof.
  induction ms as [|[raw v] ms IH]; intros s; [by destruct s|]. cbn [store_members]. remember (store_members data_fields) as F eqn:HF. clear HF.
  unfold data_fields. cbn [find_field]. fold_names. rewrite !sel_cons. set (n := fold_case (unquote 0 raw)). clearbody n.
  revert IH. generalize (store_slice zero_mspan (store_struct span_fields)) (store_map [] (store_struct process_fields)). intros sspans sprocs IH.
  key_cases n; [|key_cases n].
  - one_step. destruct (sspans v (md_spans s)); cbn [mbind option_bind]; [rewrite IH; done|all_runs; done].
  - one_step. destruct (sprocs v (md_procs s)); cbn [mbind option_bind]; [rewrite IH; done|all_runs; done].
  - one_step. apply IH.
Qed.
Lemma single_runs {T} name (store : tree -> T -> option T) ms : forallb lower name = true ->
  forall d, store_members [(name, store)] ms d = runs store (sel name ms) d.
Proof.
  intros Hn. induction ms as [|[raw v] ms IH]; intros s; [done|]. cbn [store_members find_field]. rewrite equal_fold_spec by done. rewrite sel_cons.
  case_bool_decide; destruct (decide _); try done. cbn [runs]. destruct (store v s); [apply IH|done].
Qed.

(* ---------- documents ---------- *)
(** What is assumed of a document. *)
Definition good (v : json) : Prop := given_once v /\ doubles v.
Lemma good_arr l : good (JArr l) -> Forall good l.
Proof.
  intros [Ho Hd]. inversion Ho as [l' _ H1|l' _ H1|v _ H1]; subst; [|done]. inversion Hd as [l'|l' H2|l'|v H2]; subst; [|done].
  apply Forall_forall. intros x Hx. rewrite Forall_forall in H1, H2. split; [by apply H1|by apply H2].
Qed.
Lemma good_members ms : good (JObj ms) -> Forall (fun m => good m.2) ms.
Proof.
  intros [Ho Hd]. inversion Ho as [l' _ H1|l' _ H1|v _ H1]; subst; [|done]. inversion Hd as [l'|l' H2|l' H2|v H2]; subst; [|done].
  apply Forall_forall. intros x Hx. rewrite Forall_forall in H1, H2. split; [by apply H1|by apply H2].
Qed.
Lemma good_named k ms : good (JObj ms) -> Forall good (named k ms).
Proof.
  intros H%good_members. unfold named. induction H as [|[n v] ms Hm H IH]; [constructor|]. cbn [List.filter]. case_bool_decide; [|done]. by constructor.
Qed.
Lemma good_once k ms : good (JObj ms) -> k ∈ [str "data"; str "spans"; str "processes"; str "references"; str "tags"] -> (length (named k ms) <= 1)%nat.
Proof.
  intros [Ho _] Hk. inversion Ho as [l' _ H1|l' H1 _|v _ H1]; subst; [|done]. rewrite Forall_forall in H1. by apply (H1 k).
Qed.
Lemma good_arrays l : Forall good l -> Forall (fun v => forall vs, v = JArr vs -> Forall good vs) l.
Proof. intros H. eapply Forall_impl; [exact H|]. intros v Hv vs ->. by apply good_arr. Qed.
Lemma present_named k ms : present k ms = List.filter nonnull (named k ms).
Proof. done. Qed.
Notation P := plain_ids.
Ltac pick := repeat (first [apply elem_of_list_here|apply elem_of_list_further]).

Lemma tag_means t v : means P t v -> good v -> store_struct tag_fields t zero_tag = jaeger_tag_of v.
Proof.
  intros H Hg. unfold store_struct, jaeger_tag_of. destruct H as [| | |l Hl|raw s Hj Hu Hp|ts vs H|ms vs H]; try done. cbn [as_members mbind option_bind].
  rewrite tag_runs. pose proof (fun k => sel_named P k ms vs H) as Hs. pose proof (fun k => good_named k vs Hg) as Hq. cbn [jt_key jt_value zero_tag].
  rewrite (runs_present P good store_string as_str _ _ (fun t v old Hm _ => store_string_means P t v old Hm) (Hs _) (Hq _)).
  rewrite (runs_named P good store_interface as_tag_value _ _ (fun t v old Hm Hv => store_interface_means P t v old Hm (proj2 Hv)) (Hs _) (Hq _)).
  done.
Qed.
Lemma ref_means t v : means P t v -> good v -> store_struct ref_fields t zero_ref = jaeger_ref_of v.
Proof.
  intros H Hg. unfold store_struct, jaeger_ref_of. destruct H as [| | |l Hl|raw s Hj Hu Hp|ts vs H|ms vs H]; try done. cbn [as_members mbind option_bind].
  rewrite ref_runs. pose proof (fun k => sel_named P k ms vs H) as Hs. pose proof (fun k => good_named k vs Hg) as Hq. cbn [jr_type jr_span zero_ref].
  rewrite (runs_present P good store_string as_str _ _ (fun t v old Hm _ => store_string_means P t v old Hm) (Hs _) (Hq _)).
  rewrite (runs_named P good store_id as_ident _ _ (fun t v old Hm Hv => store_id_means t v old Hm) (Hs _) (Hq _)).
  done.
Qed.
Lemma process_means t v : means P t v -> good v -> store_struct process_fields t [] = jaeger_process_of v.
Proof.
  intros H Hg. unfold store_struct, jaeger_process_of. destruct H as [| | |l Hl|raw s Hj Hu Hp|ts vs H|ms vs H]; try done. cbn [as_members mbind option_bind].
  unfold process_fields. rewrite single_runs by done. pose proof (fun k => sel_named P k ms vs H) as Hs. pose proof (fun k => good_named k vs Hg) as Hq.
  by rewrite (runs_present P good store_string as_str _ _ (fun t v old Hm _ => store_string_means P t v old Hm) (Hs _) (Hq _)).
Qed.
Lemma option_map_id {A} (x : option A) : option_map id x = x.
Proof. by destruct x. Qed.
Lemma span_means t v : means P t v -> good v -> option_map view_span (store_struct span_fields t zero_mspan) = jaeger_span_of v.
Proof.
  intros H Hg. unfold store_struct, jaeger_span_of. destruct H as [| | |l Hl|raw s Hj Hu Hp|ts vs H|ms vs H]; try done. cbn [as_members mbind option_bind].
  rewrite span_runs. pose proof (fun k => sel_named P k ms vs H) as Hs. pose proof (fun k => good_named k vs Hg) as Hq.
  cbn [ms_trace ms_id ms_operation ms_refs ms_ts ms_dur ms_process ms_tags zero_mspan].
  rewrite !(runs_present P good store_string as_str _ _ (fun t v old Hm _ => store_string_means P t v old Hm) (Hs _) (Hq _)).
  rewrite !(runs_present P good store_uint as_u64 _ _ (fun t v old Hm _ => store_uint_means P t v old Hm) (Hs _) (Hq _)).
  rewrite !(runs_named P good store_id as_ident _ _ (fun t v old Hm Hv => store_id_means t v old Hm) (Hs _) (Hq _)).
  unfold items. rewrite !present_named.
  rewrite <- (runs_slice P good (store_struct ref_fields) zero_ref id jaeger_ref_of _ _
    (fun t v Hm Hv => eq_trans (option_map_id _) (ref_means t v Hm Hv)) (Hs (str "references")) (good_arrays _ (Hq _)) (good_once (str "references") vs Hg ltac:(pick))).
  rewrite <- (runs_slice P good (store_struct tag_fields) zero_tag id jaeger_tag_of _ _
    (fun t v Hm Hv => eq_trans (option_map_id _) (tag_means t v Hm Hv)) (Hs (str "tags")) (good_arrays _ (Hq _)) (good_once (str "tags") vs Hg ltac:(pick))).
  repeat match goal with
  | |- context [last_of ?f ?d ?l] => destruct (last_of f d l); cbn [mbind option_bind option_map]; try done
  | |- context [runs ?f ?d ?l] => destruct (runs f d l); cbn [mbind option_bind option_map]; try done
  end.
  unfold view_span. cbn. by rewrite !map_id.
Qed.
Lemma procs_means ms vs : means_members P ms vs -> Forall (fun m => good m.2) vs -> forall old,
  store_entries [] (store_struct process_fields) ms old =
  option_map (fun l => foldl (fun m kv => <[kv.1 := kv.2]> m) old l) (traverse (fun kv => option_map (pair kv.1) (jaeger_process_of kv.2)) vs).
Proof.
  induction 1 as [|raw n t v ms vs Hj Hu H Hr IH]; intros Hg old; [done|]. inversion_clear Hg. cbn [store_entries traverse fst snd].
  rewrite (process_means t v) by done. destruct (jaeger_process_of v) as [x|]; [|done]. cbn [option_map]. rewrite IH by done.
  erewrite (unquote_meaning _ raw n) by done. by destruct (traverse _ vs).
Qed.
Lemma runs_procs ts vs : Forall2 (means P) ts vs -> Forall good vs -> (length vs <= 1)%nat ->
  runs store_procs ts ∅ = procs ← last_of as_obj [] (List.filter nonnull vs);
    option_map (fun l => foldl (fun m kv => <[kv.1 := kv.2]> m) (∅ : gmap gostring gostring) l)
      (traverse (fun kv => option_map (pair kv.1) (jaeger_process_of kv.2)) procs).
Proof.
  intros H HQ Hl. destruct H as [|t v ts vs H Hr]; [done|]. destruct Hr; [|cbn in Hl; lia]. cbn [runs List.filter]. inversion_clear HQ as [|? ? HQv _].
  destruct H as [| | |l Hl'|raw s Hj Hu Hp|ts vs H|ms vs H]; try done. cbn [nonnull store_map]. rewrite last_of_cons. cbn [as_obj].
  change (last_of as_obj vs []) with (Some vs). cbn [mbind option_bind]. rewrite (procs_means ms vs) by (first [done|by apply good_members]).
  by destruct (traverse _ vs).
Qed.
Lemma data_means t v : means P t v -> good v -> option_map view_data (store_struct data_fields t zero_mdata) = jaeger_data_of v.
Proof.
  intros H Hg. unfold store_struct, jaeger_data_of. destruct H as [| | |l Hl|raw s Hj Hu Hp|ts vs H|ms vs H]; try done. cbn [as_members mbind option_bind].
  rewrite data_runs. pose proof (fun k => sel_named P k ms vs H) as Hs. pose proof (fun k => good_named k vs Hg) as Hq. cbn [md_spans md_procs zero_mdata].
  rewrite (runs_procs _ _ (Hs (str "processes")) (Hq _) (good_once (str "processes") vs Hg ltac:(pick))).
  unfold items, jaeger_processes_of. rewrite !present_named.
  rewrite <- (runs_slice P good (store_struct span_fields) zero_mspan view_span jaeger_span_of _ _ span_means
    (Hs (str "spans")) (good_arrays _ (Hq _)) (good_once (str "spans") vs Hg ltac:(pick))).
  destruct (runs _ _ _); cbn [mbind option_bind option_map]; [|done].
  destruct (last_of as_obj _ _); cbn [mbind option_bind option_map]; [|done].
  by destruct (traverse _ _).
Qed.
Lemma document_means t v : means P t v -> good v -> decode_tree t = jaeger_document v.
Proof.
  intros H Hg. unfold decode_tree, store_struct, jaeger_document. destruct H as [| | |l Hl|raw s Hj Hu Hp|ts vs H|ms vs H]; try done. cbn [as_members mbind option_bind].
  unfold object_fields. rewrite single_runs by done. pose proof (fun k => sel_named P k ms vs H) as Hs. pose proof (fun k => good_named k vs Hg) as Hq.
  unfold items. rewrite !present_named.
  rewrite <- (runs_slice P good (store_struct data_fields) zero_mdata view_data jaeger_data_of _ _ data_means
    (Hs (str "data")) (good_arrays _ (Hq _)) (good_once (str "data") vs Hg ltac:(pick))).
  by destruct (runs _ _ _).
Qed.
