(** Lemmas about the binary codec model. *)
From Verif Require Import Base SpanModel BinaryModel BinarySpec.

(* ---------- varints ---------- *)

Lemma land128_low b : 0 <= b < 128 -> Z.land b 128 = 0.
Proof. intros H. rewrite Z.land_comm. apply (land_disjoint 1 7 b); [lia|done]. Qed.
Lemma lor128 b : 0 <= b < 128 -> Z.lor b 128 = b + 128.
Proof. intros H. apply (lor_disjoint' b 1 7); [lia|done]. Qed.
Lemma land128_high b : 0 <= b < 128 -> Z.land (b + 128) 128 = 128.
Proof.
  intros H. rewrite <- lor128, Z.land_lor_distr_l, land128_low by done. reflexivity.
Qed.

Lemma pow2_pos n : 0 <= n -> 0 < 2^n.
Proof. intros. apply Z.pow_pos_nonneg; lia. Qed.

(** One step of reading a 7-bit group. *)
Lemma group_or acc b shift : 0 <= shift -> 0 <= acc < 2^shift -> 0 <= b < 128 -> b * 2^shift < 2^64 ->
  Z.lor acc (u64 (Z.shiftl b shift)) = acc + b * 2^shift.
Proof.
  intros Hs Ha Hb Hlt. rewrite Z.shiftl_mul_pow2 by done. rewrite u64_id.
  - apply lor_disjoint'; done.
  - split; [|done]. pose proof (pow2_pos shift Hs). nia.
Qed.

Lemma encode_int_loop_read fuel : forall v bs shift acc rest,
  0 < v -> encode_int_loop fuel v = Some bs -> 0 <= shift -> v * 2^shift < 2^64 -> 0 <= acc < 2^shift ->
  read_long_loop shift acc (bs ++ rest) = DOk (acc + v * 2^shift) rest.
Proof.
  induction fuel as [|fuel IH]; intros v bs shift acc rest Hv He Hs Hlt Ha;
    cbn [encode_int_loop] in He; replace (0 <? v) with true in He by lia; [done|].
  rewrite Z.shiftr_div_pow2 in He by lia. change (2^7) with 128 in He. rewrite land127 in He.
  destruct (encode_int_loop fuel (v / 128)) as [bs'|] eqn:E; [|done].
  injection He as <-. cbn [app read_long_loop].
  assert (Hb : 0 <= v mod 128 < 128) by (apply Z.mod_pos_bound; lia).
  pose proof (pow2_pos shift Hs) as Hp.
  assert (Hbv : v mod 128 <= v) by (apply Z.mod_le; lia).
  destruct (Z.eqb_spec (v / 128) 0) as [Hz|Hz]; cbn [negb].
  - rewrite Hz in E. assert (bs' = []) as ->.
    { destruct fuel; cbn in E; by injection E as <-. }
    rewrite land127, Z.mod_mod, land128_low by lia. cbn [Z.eqb].
    rewrite group_or by (try lia; nia). cbn [app]. f_equal.
    assert (v = v mod 128) as <- by (rewrite (Z.div_mod v 128) at 1 by lia; lia). done.
  - rewrite lor128 by done. rewrite land128_high by done. cbn [Z.eqb].
    rewrite land127. replace ((v mod 128 + 128) mod 128) with (v mod 128) by zlia.
    rewrite group_or by (try lia; nia).
    assert (Hdm : v = 128 * (v / 128) + v mod 128) by (apply Z.div_mod; lia).
    assert (Hpow : 2^(shift+7) = 128 * 2^shift) by (rewrite Z.pow_add_r by lia; change (2^7) with 128; lia).
    assert (Hq : 0 <= v / 128) by (apply Z.div_pos; lia).
    rewrite (IH (v / 128) bs' (shift + 7)); [|lia|done|lia|rewrite Hpow; nia|rewrite Hpow; nia].
    f_equal. rewrite Hpow. transitivity (acc + (128 * (v / 128) + v mod 128) * 2^shift); [ring|by rewrite <- Hdm].
Qed.

Lemma encode_int_loop_some fuel : forall v, 0 < v < 2^(7 * Z.of_nat fuel) ->
  exists bs, encode_int_loop fuel v = Some bs /\ (1 <= length bs <= fuel)%nat /\ varint_shape bs.
Proof.
  induction fuel as [|fuel IH]; intros v Hv.
  - change (7 * Z.of_nat 0) with 0 in Hv. change (2^0) with 1 in Hv. lia.
  - cbn [encode_int_loop]. replace (0 <? v) with true by lia.
    rewrite Z.shiftr_div_pow2 by lia. change (2^7) with 128. rewrite land127.
    assert (Hb : 0 <= v mod 128 < 128) by (apply Z.mod_pos_bound; lia).
    destruct (Z.eqb_spec (v / 128) 0) as [Hz|Hz]; cbn [negb].
    + rewrite Hz. exists [v mod 128]. split; [destruct fuel; reflexivity|]. split; [cbn; lia|].
      exists [], (v mod 128). split; [done|]. split; [constructor|done].
    + destruct (IH (v / 128)) as (bs & -> & Hl & (init & l & -> & Hi & Hb2)).
      * split; [assert (0 <= v / 128) by (apply Z.div_pos; lia); lia|].
        apply Z.div_lt_upper_bound; [lia|].
        replace (7 * Z.of_nat (S fuel)) with (7 + 7 * Z.of_nat fuel) in Hv by lia.
        rewrite Z.pow_add_r in Hv by lia. change (2^7) with 128 in Hv. lia.
      * exists (Z.lor (v mod 128) 128 :: init ++ [l]). split; [done|]. split; [cbn [length]; lia|].
        exists (Z.lor (v mod 128) 128 :: init), l. split; [done|]. split; [|done].
        constructor; [|done]. rewrite lor128 by done. lia.
Qed.

Lemma encode_int_spec v : uint64_ok v ->
  exists bs, encode_int v = Some bs /\ (1 <= length bs <= 10)%nat /\ varint_shape bs /\
    forall rest, read_long_loop 0 0 (bs ++ rest) = DOk v rest.
Proof.
  intros [H0 H1]. unfold encode_int. destruct (Z.eqb_spec v 0) as [->|Hz].
  - exists [0]. split; [done|]. split; [cbn; lia|]. split.
    + exists [], 0. split; [done|]. split; [constructor|lia].
    + intros rest. reflexivity.
  - destruct (encode_int_loop_some 10 v) as (bs & He & Hl & Hsh).
    { split; [lia|]. change (7 * Z.of_nat 10) with 70. change (2^70) with 1180591620717411303424. p2; lia. }
    exists bs. split; [done|]. split; [done|]. split; [done|]. intros rest.
    rewrite (encode_int_loop_read 10 v bs 0 0 rest) by (try done; change (2^0) with 1; lia).
    change (2^0) with 1. f_equal. lia.
Qed.

Lemma lxor_m1 x : Z.lxor x (-1) = - x - 1.
Proof. rewrite Z.lxor_m1_r. unfold Z.lnot. lia. Qed.

Lemma zigzag_val r : int64_ok r -> zigzag r = if 0 <=? r then 2 * r else - 2 * r - 1.
Proof.
  intros H. unfold zigzag. rewrite Z.shiftl_mul_pow2 by lia. change (2^1) with 2.
  rewrite Z.shiftr_div_pow2 by lia.
  destruct (Z.leb_spec 0 r) as [Hr|Hr].
  - replace (r / 2^63) with 0 by zlia. rewrite Z.lxor_0_r. zlia.
  - replace (r / 2^63) with (-1) by zlia. rewrite lxor_m1. zlia.
Qed.

Lemma unzigzag_zigzag r : int64_ok r -> unzigzag (zigzag r) = r.
Proof.
  intros H. rewrite zigzag_val by done. unfold unzigzag. rewrite Z.shiftr_div_pow2, land1 by lia. change (2^1) with 2.
  destruct (Z.leb_spec 0 r) as [Hr|Hr].
  - replace ((2 * r) mod 2) with 0 by zlia. cbn. rewrite Z.lxor_0_r. zlia.
  - replace ((-2 * r - 1) mod 2) with 1 by zlia. cbn. rewrite lxor_m1. zlia.
Qed.

Lemma zigzag_ok r : uint64_ok (zigzag r).
Proof. unfold zigzag. apply u64_ok. Qed.

Lemma write_long_spec r : int64_ok r ->
  exists bs, write_long r = Some bs /\ (1 <= length bs <= 10)%nat /\ varint_shape bs /\
    forall rest, read_long (bs ++ rest) = DOk r rest.
Proof.
  intros H. destruct (encode_int_spec (zigzag r) (zigzag_ok r)) as (bs & H1 & H2 & H3 & H4).
  exists bs. split; [done|]. do 2 (split; [done|]). intros rest. unfold read_long. rewrite H4. cbn [dbind].
  by rewrite unzigzag_zigzag.
Qed.

(** Self-terminating byte groups are prefix-free. *)
Lemma varint_shape_prefix a b c : varint_shape a -> varint_shape b -> b = a ++ c -> c = [].
Proof.
  intros (ia & la & -> & Hia & Hla) (ib & lb & -> & Hib & Hlb) He.
  destruct c as [|x c _] using rev_ind; [done|]. exfalso.
  rewrite app_assoc in He. apply app_inj_tail in He as [He _].
  assert (Hin : la ∈ ib) by (rewrite He, !elem_of_app, elem_of_list_singleton; auto).
  rewrite Forall_forall in Hib. apply Hib in Hin. lia.
Qed.

(* ---------- strings and maps: write then read ---------- *)

Definition rt {A} (w : option bytes) (f : bytes -> dres A) (a : A) : Prop :=
  exists bs, w = Some bs /\ forall rest, f (bs ++ rest) = DOk a rest.

Lemma rt_long r : int64_ok r -> rt (write_long r) read_long r.
Proof. intros H. destruct (write_long_spec r H) as (bs & H1 & _ & _ & H2). by exists bs. Qed.

Lemma rt_string s : wire_string s -> rt (write_string s) read_string s.
Proof.
  intros H. unfold wire_string in H. unfold write_string.
  destruct (rt_long (Z.of_nat (length s))) as (bs & -> & Hr); [zlia|].
  exists (bs ++ s). split; [done|]. intros rest. unfold read_string.
  rewrite <- app_assoc, Hr. cbn [dbind].
  replace ((Z.of_nat (length s) <? 0) || (2147483647 <? Z.of_nat (length s))) with false by (p2; lia).
  destruct (Z.eqb_spec (Z.of_nat (length s)) 0) as [Hz|Hz].
  - destruct s; [done|]. cbn in Hz. lia.
  - rewrite app_length. replace (Z.of_nat (length s + length rest) <? Z.of_nat (length s)) with false by lia.
    rewrite Nat2Z.id, take_app, drop_app. done.
Qed.

Definition ins (m : gmap gostring gostring) (kv : gostring * gostring) := <[kv.1 := kv.2]> m.

Lemma write_entries_spec kvs :
  Forall (fun kv => wire_string kv.1 /\ wire_string kv.2) kvs ->
  exists bs, write_entries kvs = Some bs /\ (length kvs <= length bs)%nat /\
    forall fuel i m rest, (length kvs < fuel)%nat ->
      read_entries fuel i (i + Z.of_nat (length kvs)) m (bs ++ rest) = DOk (fold_left ins kvs m) rest.
Proof.
  induction 1 as [|[k v] kvs [Hk Hv] _ (bs & Hw & Hlen & Hr)]; cbn [write_entries fst snd] in *.
  - exists []. split; [done|]. split; [done|]. intros fuel i m rest Hf. destruct fuel; [lia|]. cbn.
    replace (i <? i + Z.of_nat 0) with false by lia. done.
  - destruct (rt_string k Hk) as (bk & Hbk & Hrk). destruct (rt_string v Hv) as (bv & Hbv & Hrv).
    rewrite Hbk, Hbv, Hw. cbn [oapp]. exists (bk ++ bv ++ bs). split; [done|]. split.
    { assert (bk <> []). { intros ->. specialize (Hrk []). cbn in Hrk. done. }
      destruct bk; [done|]. rewrite !app_length. cbn [length]. lia. }
    intros fuel i m rest Hf. destruct fuel as [|fuel]; [lia|]. cbn [read_entries].
    replace (i <? i + Z.of_nat (length ((k, v) :: kvs))) with true by (cbn [length]; lia).
    rewrite <- !app_assoc, Hrk. cbn [dbind]. rewrite Hrv. cbn [dbind].
    replace (i + Z.of_nat (length ((k, v) :: kvs))) with ((i + 1) + Z.of_nat (length kvs)) by (cbn [length]; lia).
    rewrite Hr by (cbn [length] in Hf; lia). done.
Qed.

Lemma fold_ins_gen kvs : NoDup kvs.*1 -> forall m0 k,
  fold_left ins kvs m0 !! k =
  match (list_to_map kvs : gmap gostring gostring) !! k with Some v => Some v | None => m0 !! k end.
Proof.
  induction kvs as [|[k0 v0] kvs IH]; cbn [fold_left fmap list_fmap fst]; intros Hnd m0 k.
  { by rewrite list_to_map_nil, lookup_empty. }
  apply NoDup_cons in Hnd as [Hn Hnd]. rewrite IH, list_to_map_cons by done. cbn [snd].
  destruct (decide (k = k0)) as [->|Hne].
  - rewrite not_elem_of_list_to_map_1 by done. unfold ins; cbn. rewrite !lookup_insert. done.
  - unfold ins; cbn. rewrite !lookup_insert_ne by done. done.
Qed.

Lemma fold_ins_map kvs m : kvs ≡ₚ map_to_list m -> fold_left ins kvs ∅ = m.
Proof.
  intros Hp. assert (Hnd : NoDup kvs.*1) by (rewrite Hp; apply NoDup_fst_map_to_list).
  apply map_eq. intros k. rewrite fold_ins_gen by done. rewrite lookup_empty.
  assert (list_to_map kvs = m) as ->.
  { rewrite (list_to_map_proper kvs (map_to_list m)) by done. apply list_to_map_to_list. }
  by destruct (m !! k).
Qed.

Lemma rt_map order m :
  iteration_order order m -> (forall k v, m !! k = Some v -> wire_string k /\ wire_string v) ->
  Z.of_nat (size m) < 2^63 -> rt (write_map_string order) read_map_string m.
Proof.
  intros Ho Hs Hz. unfold iteration_order in Ho.
  assert (Hf : Forall (fun kv => wire_string kv.1 /\ wire_string kv.2) order).
  { rewrite Ho. apply Forall_forall. intros [k v] H. apply elem_of_map_to_list in H. by apply Hs. }
  assert (Hlen : length order = size m) by (rewrite Ho; reflexivity).
  unfold write_map_string. destruct order as [|kv order'] eqn:Eo.
  - destruct (rt_long 0) as (bs & Hbs & Hr); [zlia|]. exists bs. split; [done|]. intros rest.
    unfold read_map_string. cbn [read_blocks]. rewrite Hr. cbn [dbind Z.eqb].
    assert (m = ∅) as ->; [|done]. rewrite <- (fold_ins_map [] m) by done. done.
  - rewrite <- Eo in *.
    assert (Hpos : (0 < length order)%nat) by (rewrite Eo; cbn; lia).
    clear Eo kv order'.
    destruct (rt_long (Z.of_nat (length order))) as (bl & -> & Hrl); [zlia|].
    destruct (write_entries_spec order Hf) as (be & -> & Hbl & Hre).
    destruct (rt_long 0) as (bz & -> & Hrz); [zlia|].
    cbn [oapp]. exists (bl ++ be ++ bz). split; [done|]. intros rest.
    unfold read_map_string. cbn [read_blocks]. rewrite <- !app_assoc, Hrl. cbn [dbind].
    replace (Z.of_nat (length order) =? 0) with false by lia.
    replace (Z.of_nat (length order) <? 0) with false by lia.
    replace (Z.of_nat (length order)) with (0 + Z.of_nat (length order)) by lia.
    rewrite Hre. 2:{ rewrite app_length. lia. }
    cbn [dbind].
    assert (Hnf : exists f, length (bl ++ be ++ bz ++ rest) = S f).
    { exists (length (bl ++ be ++ bz ++ rest) - 1)%nat.
      assert (1 <= length be)%nat by lia. rewrite !app_length. lia. }
    destruct Hnf as [f ->]. cbn [read_blocks]. rewrite Hrz. cbn [dbind Z.eqb].
    by rewrite (fold_ins_map order m).
Qed.

Lemma oapp_some a b : oapp (Some a) (Some b) = Some (a ++ b).
Proof. done. Qed.

Lemma binary_roundtrip s order : wire_ok s -> iteration_order order (s_tags s) ->
  rt (binary_encode order s) binary_decode s.
Proof.
  intros ((Hid & Hpar & Htr & Hts & Hdur & (Hcs & Hcr & Hss & Hsr)) & Hn & Hsv & Htags & Hsz) Ho.
  destruct s as [id par tr name svc ts dur tags [cs cr ss sr]]; cbn in *.
  unfold binary_encode. cbn [s_id s_parent s_trace s_name s_service s_ts s_dur s_tags s_timings tCS tCR tSS tSR].
  destruct (rt_long id Hid) as (b1 & -> & H1). destruct (rt_long tr Htr) as (b2 & -> & H2).
  destruct (rt_long par Hpar) as (b3 & -> & H3). destruct (rt_string name Hn) as (b4 & -> & H4).
  destruct (rt_string svc Hsv) as (b5 & -> & H5). destruct (rt_long ts Hts) as (b6 & -> & H6).
  destruct (rt_long dur Hdur) as (b7 & -> & H7). destruct (rt_long cs Hcs) as (b8 & -> & H8).
  destruct (rt_long cr Hcr) as (b9 & -> & H9). destruct (rt_long ss Hss) as (b10 & -> & H10).
  destruct (rt_long sr Hsr) as (b11 & -> & H11).
  destruct (rt_map order tags Ho Htags Hsz) as (b12 & -> & H12).
  rewrite !oapp_some. eexists. split; [reflexivity|]. intros rest. unfold binary_decode.
  rewrite <- !app_assoc.
  rewrite H1; cbn [dbind]. rewrite H2; cbn [dbind]. rewrite H3; cbn [dbind]. rewrite H4; cbn [dbind].
  rewrite H5; cbn [dbind]. rewrite H6; cbn [dbind]. rewrite H7; cbn [dbind]. rewrite H8; cbn [dbind].
  rewrite H9; cbn [dbind]. rewrite H10; cbn [dbind]. rewrite H11; cbn [dbind]. rewrite H12; cbn [dbind]. done.
Qed.

(* ---------- locality and termination ---------- *)

(** [f] succeeds only by consuming a prefix, and its result depends on that prefix alone. *)
Definition local {A} (f : bytes -> dres A) : Prop :=
  forall r a rest, f r = DOk a rest -> exists p, r = p ++ rest /\ forall q, f (p ++ q) = DOk a q.
Definition nonempty_reader {A} (f : bytes -> dres A) : Prop :=
  forall r a rest, f r = DOk a rest -> (length rest < length r)%nat.
Definition no_fuel {A} (f : bytes -> dres A) : Prop := forall r, f r <> DErr EFuel.

Lemma local_le {A} (f : bytes -> dres A) r a rest : local f -> f r = DOk a rest -> (length rest <= length r)%nat.
Proof. intros Hf H. destruct (Hf _ _ _ H) as (p & -> & _). rewrite app_length. lia. Qed.

Lemma local_bind {A B} (f : bytes -> dres A) (g : A -> bytes -> dres B) :
  local f -> (forall a, local (g a)) -> local (fun r => dbind (f r) g).
Proof.
  intros Hf Hg r b rest H. destruct (f r) as [a r1|e] eqn:E; [|done]. cbn [dbind] in H.
  destruct (Hf _ _ _ E) as (p1 & -> & H1). destruct (Hg a _ _ _ H) as (p2 & -> & H2).
  exists (p1 ++ p2). split; [by rewrite app_assoc|]. intros q. rewrite <- app_assoc, H1. cbn [dbind]. apply H2.
Qed.

Lemma local_ret {A} (a : A) : local (fun r => DOk a r).
Proof. intros r b rest H. injection H as <- <-. exists []. done. Qed.

Lemma read_long_loop_local shift v : local (read_long_loop shift v).
Proof.
  intros r. revert shift v. induction r as [|b r IH]; intros shift v a rest H; cbn [read_long_loop] in H; [done|].
  destruct (Z.land b 128 =? 0) eqn:E.
  - injection H as <- <-. exists [b]. split; [done|]. intros q. cbn. by rewrite E.
  - destruct (IH _ _ _ _ H) as (p & -> & Hp). exists (b :: p). split; [done|]. intros q. cbn. by rewrite E.
Qed.
Lemma read_long_local : local read_long.
Proof. apply local_bind; [apply read_long_loop_local|]. intros v. apply local_ret. Qed.

Lemma read_long_loop_shrinks r : forall shift v a rest,
  read_long_loop shift v r = DOk a rest -> (length rest < length r)%nat.
Proof.
  induction r as [|b r IH]; intros shift v a rest H; cbn [read_long_loop] in H; [done|].
  destruct (Z.land b 128 =? 0).
  - injection H as <- <-. cbn. lia.
  - apply IH in H. cbn. lia.
Qed.
Lemma read_long_shrinks : nonempty_reader read_long.
Proof.
  intros r a rest H. unfold read_long in H. destruct (read_long_loop 0 0 r) as [v r1|] eqn:E; [|done].
  injection H as <- <-. by eapply read_long_loop_shrinks.
Qed.
Lemma read_long_loop_nofuel r : forall shift v, read_long_loop shift v r <> DErr EFuel.
Proof.
  induction r as [|b r IH]; intros shift v; cbn [read_long_loop]; [done|].
  destruct (Z.land b 128 =? 0); [done|]. apply IH.
Qed.
Lemma read_long_nofuel : no_fuel read_long.
Proof.
  intros r. unfold read_long. pose proof (read_long_loop_nofuel r 0 0).
  destruct (read_long_loop 0 0 r) as [|[]]; cbn; congruence.
Qed.

Lemma read_string_local : local read_string.
Proof.
  apply (local_bind read_long). { apply read_long_local. }
  intros len r s rest H. cbv beta in *.
  destruct ((len <? 0) || (2147483647 <? len)) eqn:E1; [done|].
  destruct (len =? 0) eqn:E2.
  { injection H as <- <-. exists []. done. }
  destruct (Z.of_nat (length r) <? len) eqn:E3; [done|]. injection H as <- <-.
  assert (Hl : length (take (Z.to_nat len) r) = Z.to_nat len) by (rewrite take_length; lia).
  exists (take (Z.to_nat len) r). split; [by rewrite take_drop|]. intros q.
  rewrite app_length, Hl. replace (Z.of_nat (Z.to_nat len + length q) <? len) with false by lia.
  rewrite take_app_alt, drop_app_alt by done. done.
Qed.
Lemma read_string_shrinks : nonempty_reader read_string.
Proof.
  intros r s rest H. unfold read_string in H. destruct (read_long r) as [len r1|] eqn:E; [|done].
  apply read_long_shrinks in E. cbn [dbind] in H.
  destruct ((len <? 0) || (2147483647 <? len)); [done|].
  destruct (len =? 0). { injection H as <- <-. done. }
  destruct (Z.of_nat (length r1) <? len); [done|]. injection H as <- <-. rewrite drop_length. lia.
Qed.
Lemma read_string_nofuel : no_fuel read_string.
Proof.
  intros r. unfold read_string. pose proof (read_long_nofuel r).
  destruct (read_long r) as [len r1|[]]; cbn [dbind]; try congruence.
  destruct ((len <? 0) || (2147483647 <? len)); [done|].
  destruct (len =? 0); [done|]. by destruct (Z.of_nat (length r1) <? len).
Qed.

(** With enough fuel the loops do not depend on it. *)
Lemma read_entries_fuel f1 : forall f2 i b m r, (length r < f1)%nat -> (length r < f2)%nat ->
  read_entries f1 i b m r = read_entries f2 i b m r /\ read_entries f1 i b m r <> DErr EFuel.
Proof.
  induction f1 as [|f1 IH]; intros f2 i b m r H1 H2; [lia|]. destruct f2 as [|f2]; [lia|].
  cbn [read_entries]. destruct (i <? b); [|done].
  pose proof (read_string_nofuel r). destruct (read_string r) as [k r1|e] eqn:E1; cbn [dbind]; [|split; congruence].
  pose proof (read_string_nofuel r1). destruct (read_string r1) as [v r2|e] eqn:E2; cbn [dbind]; [|split; congruence].
  apply read_string_shrinks in E1, E2. apply IH; lia.
Qed.

Lemma read_entries_local : forall fuel i b m r m' rest,
  (length r < fuel)%nat -> read_entries fuel i b m r = DOk m' rest ->
  exists p, r = p ++ rest /\ forall q fuel', (length (p ++ q) < fuel')%nat -> read_entries fuel' i b m (p ++ q) = DOk m' q.
Proof.
  induction fuel as [|fuel IH]; intros i b m r m' rest Hf H; [lia|]. cbn [read_entries] in H.
  destruct (i <? b) eqn:Ei.
  - destruct (read_string r) as [k r1|e] eqn:E1; [|done]. cbn [dbind] in H.
    destruct (read_string r1) as [v r2|e] eqn:E2; [|done]. cbn [dbind] in H.
    pose proof (read_string_shrinks _ _ _ E1) as HsE1. pose proof (read_string_shrinks _ _ _ E2) as HsE2.
    apply IH in H as (p3 & -> & H3); [|lia].
    destruct (read_string_local _ _ _ E2) as (p2 & -> & H2).
    destruct (read_string_local _ _ _ E1) as (p1 & -> & H1).
    exists (p1 ++ p2 ++ p3). split; [by rewrite <- !app_assoc|]. intros q fuel' Hf'.
    destruct fuel' as [|fuel']; [lia|]. cbn [read_entries]. rewrite Ei.
    rewrite <- !app_assoc, H1. cbn [dbind]. rewrite H2. cbn [dbind]. apply H3.
    pose proof (read_string_shrinks _ _ _ (H1 (p2 ++ p3 ++ q))). rewrite <- !app_assoc in Hf'.
    pose proof (read_string_shrinks _ _ _ (H2 (p3 ++ q))). lia.
  - injection H as <- <-. exists []. split; [done|]. intros q fuel' Hf'. destruct fuel' as [|fuel']; [lia|].
    cbn [read_entries app]. by rewrite Ei.
Qed.

Lemma read_blocks_nofuel fuel : forall m r, (length r < fuel)%nat -> read_blocks fuel m r <> DErr EFuel.
Proof.
  induction fuel as [|fuel IH]; intros m r Hf; [lia|]. cbn [read_blocks].
  pose proof (read_long_nofuel r). destruct (read_long r) as [b r1|e] eqn:E1; cbn [dbind]; [|congruence].
  apply read_long_shrinks in E1.
  destruct (b =? 0); [done|]. destruct (b <? 0).
  - pose proof (read_long_nofuel r1). destruct (read_long r1) as [sk r2|e] eqn:E2; cbn [dbind]; [|congruence].
    apply read_long_shrinks in E2.
    destruct (read_entries_fuel (S (length r2)) (S (length r2)) 0 (wrap64 (- b)) m r2 ltac:(lia) ltac:(lia)) as [_ Hn].
    destruct (read_entries (S (length r2)) 0 (wrap64 (- b)) m r2) as [m' r3|e] eqn:E3; cbn [dbind]; [|congruence].
    apply read_entries_local in E3 as (p & -> & _); [|lia]. rewrite app_length in *. apply IH. lia.
  - destruct (read_entries_fuel (S (length r1)) (S (length r1)) 0 b m r1 ltac:(lia) ltac:(lia)) as [_ Hn].
    destruct (read_entries (S (length r1)) 0 b m r1) as [m' r3|e] eqn:E3; cbn [dbind]; [|congruence].
    apply read_entries_local in E3 as (p & -> & _); [|lia]. rewrite app_length in *. apply IH. lia.
Qed.

Lemma read_blocks_local : forall fuel m r m' rest,
  (length r < fuel)%nat -> read_blocks fuel m r = DOk m' rest ->
  exists p, r = p ++ rest /\ forall q fuel', (length (p ++ q) < fuel')%nat -> read_blocks fuel' m (p ++ q) = DOk m' q.
Proof.
  induction fuel as [|fuel IH]; intros m r m' rest Hf H; [lia|]. cbn [read_blocks] in H.
  destruct (read_long r) as [b r1|e] eqn:E1; [|done]. cbn [dbind] in H.
  pose proof (read_long_shrinks _ _ _ E1) as HsE1. destruct (read_long_local _ _ _ E1) as (p1 & -> & H1).
  destruct (b =? 0) eqn:Eb0.
  { injection H as <- <-. exists p1. split; [done|]. intros q fuel' Hf'. destruct fuel'; [lia|].
    cbn [read_blocks]. rewrite H1. cbn [dbind]. by rewrite Eb0. }
  destruct (b <? 0) eqn:Eb1.
  - destruct (read_long r1) as [sk r2|e] eqn:E2; [|done]. cbn [dbind] in H.
    pose proof (read_long_shrinks _ _ _ E2) as HsE2. destruct (read_long_local _ _ _ E2) as (p2 & -> & H2).
    destruct (read_entries (S (length r2)) 0 (wrap64 (- b)) m r2) as [m1 r3|e] eqn:E3; [|done]. cbn [dbind] in H.
    apply read_entries_local in E3 as (p3 & -> & H3); [|lia].
    apply IH in H as (p4 & -> & H4); [|rewrite !app_length in *; lia].
    exists (p1 ++ p2 ++ p3 ++ p4). split; [by rewrite <- !app_assoc|]. intros q fuel' Hf'.
    destruct fuel' as [|fuel']; [lia|]. cbn [read_blocks]. rewrite <- !app_assoc in *.
    rewrite H1. cbn [dbind]. rewrite Eb0, Eb1, H2. cbn [dbind].
    rewrite H3 by lia. cbn [dbind]. apply H4.
    pose proof (read_long_shrinks _ _ _ (H1 (p2 ++ p3 ++ p4 ++ q))). rewrite !app_length in *. lia.
  - destruct (read_entries (S (length r1)) 0 b m r1) as [m1 r3|e] eqn:E3; [|done]. cbn [dbind] in H.
    apply read_entries_local in E3 as (p3 & -> & H3); [|lia].
    apply IH in H as (p4 & -> & H4); [|rewrite !app_length in *; lia].
    exists (p1 ++ p3 ++ p4). split; [by rewrite <- !app_assoc|]. intros q fuel' Hf'.
    destruct fuel' as [|fuel']; [lia|]. cbn [read_blocks]. rewrite <- !app_assoc in *.
    rewrite H1. cbn [dbind]. rewrite Eb0, Eb1.
    rewrite H3 by lia. cbn [dbind]. apply H4.
    pose proof (read_long_shrinks _ _ _ (H1 (p3 ++ p4 ++ q))). rewrite !app_length in *. lia.
Qed.

Lemma read_map_string_local : local read_map_string.
Proof.
  intros r m rest H. unfold read_map_string in *.
  apply read_blocks_local in H as (p & -> & Hp); [|lia]. exists p. split; [done|]. intros q. apply Hp. lia.
Qed.
Lemma read_map_string_nofuel : no_fuel read_map_string.
Proof. intros r. apply read_blocks_nofuel. lia. Qed.

Lemma nofuel_bind {A B} (f : bytes -> dres A) (g : A -> bytes -> dres B) :
  no_fuel f -> (forall a, no_fuel (g a)) -> no_fuel (fun r => dbind (f r) g).
Proof.
  intros Hf Hg r. pose proof (Hf r). destruct (f r) as [a r1|e]; cbn [dbind]; [apply Hg|congruence].
Qed.

Lemma binary_decode_local : local binary_decode.
Proof.
  unfold binary_decode.
  do 3 (apply (local_bind read_long); [apply read_long_local|intros ?]).
  do 2 (apply (local_bind read_string); [apply read_string_local|intros ?]).
  do 6 (apply (local_bind read_long); [apply read_long_local|intros ?]).
  apply (local_bind read_map_string); [apply read_map_string_local|intros ?]. apply local_ret.
Qed.
Lemma binary_decode_nofuel : no_fuel binary_decode.
Proof.
  unfold binary_decode.
  do 3 (apply (nofuel_bind read_long); [apply read_long_nofuel|intros ?]).
  do 2 (apply (nofuel_bind read_string); [apply read_string_nofuel|intros ?]).
  do 6 (apply (nofuel_bind read_long); [apply read_long_nofuel|intros ?]).
  apply (nofuel_bind read_map_string); [apply read_map_string_nofuel|intros ?]. by intros r.
Qed.
Lemma binary_decode_shrinks : nonempty_reader binary_decode.
Proof.
  intros r s rest H. unfold binary_decode in H at 1.
  destruct (read_long r) as [id r1|] eqn:E; [|done].
  pose proof (read_long_shrinks _ _ _ E) as Hs.
  match type of H with dbind _ ?k = _ => assert (Hl : local (k id)) end.
  { do 2 (apply (local_bind read_long); [apply read_long_local|intros ?]).
    do 2 (apply (local_bind read_string); [apply read_string_local|intros ?]).
    do 6 (apply (local_bind read_long); [apply read_long_local|intros ?]).
    apply (local_bind read_map_string); [apply read_map_string_local|intros ?]. apply local_ret. }
  cbn [dbind] in H. pose proof (local_le _ _ _ _ Hl H). lia.
Qed.

Lemma binary_truncated s order bs p : wire_ok s -> iteration_order order (s_tags s) ->
  binary_encode order s = Some bs -> strict_prefix p bs -> exists e, binary_decode p = DErr e /\ e <> EFuel.
Proof.
  intros Hw Ho He (c & Hc & ->). destruct (binary_roundtrip s order Hw Ho) as (bs' & He' & Hr).
  rewrite He in He'. injection He' as <-.
  pose proof (binary_decode_nofuel p) as Hn.
  destruct (binary_decode p) as [s' rest|e] eqn:E.
  - exfalso. destruct (binary_decode_local _ _ _ E) as (p' & -> & Hp').
    specialize (Hp' (rest ++ c)). rewrite app_assoc in Hp'. specialize (Hr []). rewrite app_nil_r in Hr.
    rewrite Hr in Hp'. injection Hp' as _ Hp'. destruct rest; cbn in *; by destruct c.
  - exists e. split; [done|]. congruence.
Qed.

Lemma binary_injective s1 s2 o1 o2 bs : wire_ok s1 -> wire_ok s2 ->
  iteration_order o1 (s_tags s1) -> iteration_order o2 (s_tags s2) ->
  binary_encode o1 s1 = Some bs -> binary_encode o2 s2 = Some bs -> s1 = s2.
Proof.
  intros W1 W2 O1 O2 E1 E2. destruct (binary_roundtrip s1 o1 W1 O1) as (b1 & F1 & R1).
  destruct (binary_roundtrip s2 o2 W2 O2) as (b2 & F2 & R2).
  rewrite E1 in F1. rewrite E2 in F2. injection F1 as <-. injection F2 as <-.
  specialize (R1 []). specialize (R2 []). congruence.
Qed.

(** Fields of a decoded span are machine integers. *)
Lemma lor_u64 a b : uint64_ok a -> uint64_ok b -> uint64_ok (Z.lor a b).
Proof.
  intros [Ha1 Ha2] [Hb1 Hb2]. split; [apply Z.lor_nonneg; done|].
  destruct (Z.eq_dec (Z.lor a b) 0) as [->|Hn]; [zlia|].
  assert (0 <= Z.lor a b) by (apply Z.lor_nonneg; done).
  apply Z.log2_lt_pow2; [lia|]. rewrite Z.log2_lor by done.
  assert (forall x, 0 <= x < 2^64 -> Z.log2 x < 64) as Hl.
  { intros x [Hx1 Hx2]. destruct (Z.eq_dec x 0) as [->|]; [cbn; lia|]. apply Z.log2_lt_pow2; lia. }
  pose proof (Hl a ltac:(done)). pose proof (Hl b ltac:(done)). lia.
Qed.

Lemma read_long_loop_range r : forall shift v a rest, uint64_ok v ->
  read_long_loop shift v r = DOk a rest -> uint64_ok a.
Proof.
  induction r as [|b r IH]; intros shift v a rest Hv H; cbn [read_long_loop] in H; [done|].
  assert (uint64_ok (Z.lor v (u64 (Z.shiftl (Z.land b 127) shift)))) by (apply lor_u64; [done|apply u64_ok]).
  destruct (Z.land b 128 =? 0).
  - by injection H as <- <-.
  - by eapply IH.
Qed.

Lemma unzigzag_range v : uint64_ok v -> int64_ok (unzigzag v).
Proof.
  intros H. unfold unzigzag. rewrite Z.shiftr_div_pow2, land1 by lia. change (2^1) with 2.
  destruct (Z.eq_dec (v mod 2) 0) as [->|Hn].
  - cbn. rewrite Z.lxor_0_r. zlia.
  - replace (v mod 2) with 1 by zlia. cbn. rewrite lxor_m1. zlia.
Qed.

Lemma read_long_range r a rest : read_long r = DOk a rest -> int64_ok a.
Proof.
  unfold read_long. intros H. destruct (read_long_loop 0 0 r) as [v r1|] eqn:E; [|done].
  injection H as <- _. apply unzigzag_range. eapply read_long_loop_range; [|done]. zlia.
Qed.

Lemma dbind_ok {A B} (x : dres A) (k : A -> bytes -> dres B) b rest :
  dbind x k = DOk b rest -> exists a r, x = DOk a r /\ k a r = DOk b rest.
Proof. destruct x as [a r|]; cbn; [|done]. intros H. by exists a, r. Qed.

Lemma binary_decode_range r s rest : binary_decode r = DOk s rest -> span_ok s.
Proof.
  unfold binary_decode. intros H.
  do 11 (apply dbind_ok in H as (? & ? & ? & H)).
  apply dbind_ok in H as (tags & ? & ? & H). injection H as <- <-.
  repeat match goal with H : read_long _ = DOk _ _ |- _ => apply read_long_range in H end.
  unfold span_ok, timings_ok; cbn. tauto.
Qed.

Lemma write_long_shape_all r : int64_ok r ->
  exists bs, write_long r = Some bs /\ (1 <= length bs <= 10)%nat /\ varint_shape bs.
Proof. intros H. destruct (write_long_spec r H) as (bs & ? & ? & ? & _). eauto. Qed.

Lemma write_long_prefix_free r1 r2 b1 b2 c : int64_ok r1 -> int64_ok r2 ->
  write_long r1 = Some b1 -> write_long r2 = Some b2 -> b2 = b1 ++ c -> c = [] /\ r1 = r2.
Proof.
  intros H1 H2 E1 E2 He.
  destruct (write_long_spec r1 H1) as (b1' & E1' & _ & S1 & R1).
  destruct (write_long_spec r2 H2) as (b2' & E2' & _ & S2 & R2).
  rewrite E1 in E1'. rewrite E2 in E2'. injection E1' as <-. injection E2' as <-.
  assert (c = []) as -> by eauto using varint_shape_prefix.
  rewrite app_nil_r in He. subst b2. split; [done|].
  specialize (R1 []). specialize (R2 []). congruence.
Qed.

Lemma binary_local_all r s rest : binary_decode r = DOk s rest ->
  exists p, p <> [] /\ r = p ++ rest /\ span_ok s /\ forall q, binary_decode (p ++ q) = DOk s q.
Proof.
  intros H. pose proof (binary_decode_shrinks _ _ _ H). pose proof (binary_decode_range _ _ _ H).
  destruct (binary_decode_local _ _ _ H) as (p & -> & Hp). exists p. split; [|done].
  intros ->. cbn in *. lia.
Qed.

Lemma binary_terminates r : (exists s rest, binary_decode r = DOk s rest) \/ binary_decode r = DErr EEof \/ binary_decode r = DErr ELength.
Proof.
  pose proof (binary_decode_nofuel r). destruct (binary_decode r) as [s rest|[]]; eauto. congruence.
Qed.

(* ---------- maps in several blocks ---------- *)

Lemma fold_ins_snoc kvs kv m : fold_left ins (kvs ++ [kv]) m = ins (fold_left ins kvs m) kv.
Proof. apply fold_left_app. Qed.

Lemma fold_ins_last kvs k v : fold_left ins kvs ∅ !! k = Some v <-> last_entry kvs k v.
Proof.
  induction kvs as [|[k0 v0] kvs IH] using rev_ind.
  { cbn. rewrite lookup_empty. split; [done|]. intros (l1 & l2 & H & _). by destruct l1. }
  rewrite fold_ins_snoc. unfold ins at 1; cbn [fst snd].
  destruct (decide (k0 = k)) as [->|Hne].
  - rewrite lookup_insert. split.
    + intros [= ->]. exists kvs, []. split; [done|]. cbn. apply not_elem_of_nil.
    + intros (l1 & l2 & H & Hn). destruct l2 as [|x l2 _] using rev_ind.
      * apply app_inj_tail in H as [_ H]. by injection H as <-.
      * change ((k, v) :: l2 ++ [x]) with (((k, v) :: l2) ++ [x]) in H. rewrite app_assoc in H.
        apply app_inj_tail in H as [_ <-]. exfalso. apply Hn. rewrite fmap_app. apply elem_of_app. right. cbn. by left.
  - rewrite lookup_insert_ne by done. rewrite IH. split.
    + intros (l1 & l2 & -> & Hn). exists l1, (l2 ++ [(k0, v0)]). split; [by rewrite <- app_assoc|].
      rewrite fmap_app, elem_of_app. intros [?|Hin]; [done|]. cbn in Hin. apply elem_of_list_singleton in Hin. done.
    + intros (l1 & l2 & H & Hn). destruct l2 as [|x l2 _] using rev_ind.
      * apply app_inj_tail in H as [_ H]. by injection H as -> _.
      * change ((k, v) :: l2 ++ [x]) with (((k, v) :: l2) ++ [x]) in H. rewrite app_assoc in H.
        apply app_inj_tail in H as [-> <-]. exists l1, l2. split; [done|].
        intros Hin. apply Hn. rewrite fmap_app. apply elem_of_app. by left.
Qed.

Lemma rt_blocks bs : Forall block_ok bs ->
  exists b, blocks_bytes bs = Some b /\
    forall fuel m rest, (length bs < fuel)%nat -> 
      read_blocks fuel m (b ++ rest) = DOk (fold_left ins (concat (map mb_entries bs)) m) rest.
Proof.
  induction 1 as [|blk bs (Hne & Hlt & Hwf & Hsz) _ (bb & Hbb & Hr)]; cbn [blocks_bytes].
  - destruct (rt_long 0) as (bz & -> & Hz); [zlia|]. exists bz. split; [done|]. intros fuel m rest Hf.
    destruct fuel; [lia|]. cbn [read_blocks]. rewrite Hz. done.
  - destruct (write_entries_spec _ Hwf) as (be & Hbe & Hlen & Hre).
    unfold block_bytes. rewrite Hbb, Hbe.
    assert (Hpos : (0 < length (mb_entries blk))%nat) by (destruct (mb_entries blk); cbn; [done|lia]).
    set (n := Z.of_nat (length (mb_entries blk))) in *.
    cbn [map concat]. 
    destruct (mb_size blk) as [z|].
    + destruct (rt_long (- n)) as (bn & -> & Hn); [zlia|]. destruct (rt_long z Hsz) as (bz & -> & Hz).
      rewrite !oapp_some. eexists. split; [reflexivity|]. intros fuel m rest Hf.
      destruct fuel as [|fuel]; [cbn in Hf; lia|]. cbn [read_blocks]. rewrite <- !app_assoc, Hn. cbn [dbind].
      replace (- n =? 0) with false by lia. replace (- n <? 0) with true by lia.
      rewrite Hz. cbn [dbind]. replace (wrap64 (- - n)) with (0 + n) by zlia. unfold n.
      rewrite Hre by (rewrite app_length; lia). cbn [dbind]. rewrite Hr by (cbn in Hf; lia).
      by rewrite fold_left_app.
    + destruct (rt_long n) as (bn & -> & Hn); [zlia|].
      rewrite !oapp_some. eexists. split; [reflexivity|]. intros fuel m rest Hf.
      destruct fuel as [|fuel]; [cbn in Hf; lia|]. cbn [read_blocks]. rewrite <- !app_assoc, Hn. cbn [dbind].
      replace (n =? 0) with false by lia. replace (n <? 0) with false by lia.
      replace n with (0 + n) by lia. unfold n.
      rewrite Hre by (rewrite app_length; lia). cbn [dbind]. rewrite Hr by (cbn in Hf; lia).
      by rewrite fold_left_app.
Qed.

Lemma block_bytes_nonempty b bs : block_ok b -> block_bytes b = Some bs -> bs <> [].
Proof.
  intros (_ & Hlt & _ & Hsz) H ->. unfold block_bytes in H.
  destruct (mb_size b) as [z|].
  - destruct (write_long_spec (- Z.of_nat (length (mb_entries b)))) as (bn & E & Hl & _); [zlia|]. rewrite E in H.
    destruct (write_long z) as [b1|], (write_entries (mb_entries b)) as [b2|]; cbn in H; try done.
    injection H as H. destruct bn; cbn in *; [lia|done].
  - destruct (write_long_spec (Z.of_nat (length (mb_entries b)))) as (bn & E & Hl & _); [zlia|]. rewrite E in H.
    destruct (write_entries (mb_entries b)) as [b2|]; cbn in H; try done.
    injection H as H. destruct bn; cbn in *; [lia|done].
Qed.

Lemma blocks_bytes_length bs : Forall block_ok bs -> forall b, blocks_bytes bs = Some b -> (length bs < length b)%nat.
Proof.
  induction 1 as [|blk bs Hb _ IH]; cbn [blocks_bytes]; intros b H.
  - vm_compute in H. injection H as <-. cbn. lia.
  - destruct (block_bytes blk) as [b1|] eqn:E; [|done]. destruct (blocks_bytes bs) as [b2|]; [|done].
    cbn in H. injection H as <-. specialize (IH _ eq_refl). apply block_bytes_nonempty in E; [|done].
    destruct b1; [done|]. rewrite app_length. cbn. lia.
Qed.

Lemma map_blocks_decode bs : Forall block_ok bs ->
  exists b, blocks_bytes bs = Some b /\ forall rest, exists m, read_map_string (b ++ rest) = DOk m rest /\
    forall k v, m !! k = Some v <-> last_entry (concat (map mb_entries bs)) k v.
Proof.
  intros H. destruct (rt_blocks bs H) as (b & Hb & Hr). exists b. split; [done|]. intros rest.
  exists (fold_left ins (concat (map mb_entries bs)) ∅). split.
  - apply Hr. pose proof (blocks_bytes_length _ H _ Hb). rewrite app_length. lia.
  - apply fold_ins_last.
Qed.
