(** Lemmas about the id model. *)
From Verif Require Import Base IdModel IdSpec.

Lemma hex_digit_range c d : hex_digit c d -> 0 <= d <= 15.
Proof. inversion 1; lia. Qed.

Lemma wrap64_shl4 r : exists q, wrap64 (Z.shiftl r 4) = q * 2^4.
Proof.
  rewrite Z.shiftl_mul_pow2 by lia. exists (wrap64 (r * 2^4) / 16).
  change (2^4) with 16. zlia.
Qed.

Lemma parse_id_step_digit r c d :
  hex_digit c d -> parse_id_step r c = Some (wrap64 (r * 16 + d)).
Proof.
  intros Hd. unfold parse_id_step.
  destruct (wrap64_shl4 r) as [q Hq].
  assert (Hr : wrap64 (r * 16) = q * 2^4).
  { rewrite <- Hq, Z.shiftl_mul_pow2 by lia. reflexivity. }
  rewrite Hq.
  assert (Heq : wrap64 (q * 2^4 + d) = wrap64 (r * 16 + d)) by (rewrite <- Hr; apply wrap64_add_l).
  change (2^4) with 16 in *.
  pose proof (hex_digit_range _ _ Hd) as Hrng.
  inversion Hd as [d' Hd'|d' Hd'|d' Hd']; subst.
  - replace ((48 <=? 48 + d) && (48 + d <=? 57)) with true by lia.
    change 16 with (2^4) at 1. rewrite lor_disjoint by lia. change (2^4) with 16. f_equal.
    replace (48 + d - 48) with d by lia. rewrite <- Heq. rewrite wrap64_id; [done|].
    rewrite <- Hr. zlia.
  - replace ((48 <=? 97 + (d - 10)) && (97 + (d - 10) <=? 57)) with false by lia.
    replace ((97 <=? 97 + (d - 10)) && (97 + (d - 10) <=? 102)) with true by lia.
    change 16 with (2^4) at 1. rewrite lor_disjoint by lia. change (2^4) with 16. f_equal.
    rewrite <- Heq. f_equal. lia.
  - replace ((48 <=? 65 + (d - 10)) && (65 + (d - 10) <=? 57)) with false by lia.
    replace ((97 <=? 65 + (d - 10)) && (65 + (d - 10) <=? 102)) with false by lia.
    replace ((65 <=? 65 + (d - 10)) && (65 + (d - 10) <=? 70)) with true by lia.
    change 16 with (2^4) at 1. rewrite lor_disjoint by lia. change (2^4) with 16. f_equal.
    rewrite <- Heq. f_equal. lia.
Qed.

Lemma parse_id_step_some r c r' : parse_id_step r c = Some r' -> exists d, hex_digit c d.
Proof.
  unfold parse_id_step. intros H.
  destruct ((48 <=? c) && (c <=? 57)) eqn:E1.
  { exists (c - 48). replace c with (48 + (c - 48)) at 1 by lia. constructor. lia. }
  destruct ((97 <=? c) && (c <=? 102)) eqn:E2.
  { exists (c - 87). replace c with (97 + ((c - 87) - 10)) at 1 by lia. constructor 2. lia. }
  destruct ((65 <=? c) && (c <=? 70)) eqn:E3; [|done].
  exists (c - 55). replace c with (65 + ((c - 55) - 10)) at 1 by lia. constructor 3. lia.
Qed.

Lemma parse_id_loop_digits bs ds :
  Forall2 hex_digit bs ds -> forall r, int64_ok r ->
  parse_id_loop r bs = Some (wrap64 (r * 16 ^ Z.of_nat (length ds) + value16 ds)).
Proof.
  induction 1 as [|c d bs ds Hd _ IH]; intros r Hr; cbn [parse_id_loop value16 length].
  - rewrite Z.mul_1_r, Z.add_0_r, wrap64_id by done. done.
  - rewrite (parse_id_step_digit _ _ _ Hd), IH by apply wrap64_ok. f_equal.
    apply wrap64_eq_mod. set (P := 16 ^ Z.of_nat (length ds)).
    replace (16 ^ Z.of_nat (S (length ds))) with (16 * P)
      by (unfold P; rewrite Nat2Z.inj_succ, Z.pow_succ_r by lia; lia).
    assert (Hw : wrap64 (r * 16 + d) mod 2^64 = (r * 16 + d) mod 2^64) by zlia.
    rewrite Z.add_mod, Z.mul_mod, Hw, <- Z.mul_mod, <- Z.add_mod by (p2; lia).
    f_equal. lia.
Qed.

Lemma parse_id_loop_some bs : forall r v,
  parse_id_loop r bs = Some v -> exists ds, Forall2 hex_digit bs ds.
Proof.
  induction bs as [|c bs IH]; intros r v H; cbn [parse_id_loop] in H.
  - exists []. constructor.
  - destruct (parse_id_step r c) as [r'|] eqn:E; [|done].
    destruct (parse_id_step_some _ _ _ E) as [d Hd].
    destruct (IH _ _ H) as [ds Hds]. exists (d :: ds). by constructor.
Qed.

Lemma value16_range ds : Forall (fun d => 0 <= d <= 15) ds -> 0 <= value16 ds < 16 ^ Z.of_nat (length ds).
Proof.
  induction 1 as [|d ds Hd _ IH]; cbn [value16 length].
  - rewrite Z.pow_0_r. lia.
  - rewrite Nat2Z.inj_succ, Z.pow_succ_r by lia. nia.
Qed.

Lemma hex_digits_range bs ds : Forall2 hex_digit bs ds -> Forall (fun d => 0 <= d <= 15) ds.
Proof. induction 1 as [|c d bs ds Hd _ IH]; constructor; [by eapply hex_digit_range|done]. Qed.

Lemma denotes16_range t n : denotes16 t n -> (length t <= 16)%nat -> 0 <= n < 2^64.
Proof.
  intros (ds & Hds & ->) Hl. pose proof (value16_range ds (hex_digits_range _ _ Hds)) as H.
  rewrite <- (Forall2_length _ _ _ Hds) in H.
  assert (16 ^ Z.of_nat (length t) <= 16 ^ 16) by (apply Z.pow_le_mono_r; lia).
  change (16^16) with (2^64) in *. lia.
Qed.

Lemma signed64_wrap n z : signed64 n z <-> z = wrap64 n.
Proof. unfold signed64. split; intros; zlia. Qed.

Lemma parse_id_spec bs v :
  parse_id bs = Some v <->
  (length bs <= 16)%nat /\ exists n, denotes16 bs n /\ signed64 n v.
Proof.
  unfold parse_id. destruct (Nat.ltb_spec 16 (length bs)) as [Hl|Hl].
  - split; [done|]. intros [? _]; lia.
  - split.
    + intros H. split; [done|]. destruct (parse_id_loop_some _ _ _ H) as [ds Hds].
      exists (value16 ds). split; [by exists ds|].
      rewrite (parse_id_loop_digits _ _ Hds) in H by zlia.
      apply signed64_wrap. injection H as <-. reflexivity.
    + intros [_ (n & (ds & Hds & ->) & Hv)]. rewrite (parse_id_loop_digits _ _ Hds) by zlia.
      apply signed64_wrap in Hv. subst v. done.
Qed.

Lemma hextable_nth n : 0 <= n < 16 ->
  hex_digit (nth (Z.to_nat n) hextable 0) n /\ lower_hex (nth (Z.to_nat n) hextable 0).
Proof.
  intros Hn.
  assert (H : n = 0 \/ n = 1 \/ n = 2 \/ n = 3 \/ n = 4 \/ n = 5 \/ n = 6 \/ n = 7 \/ n = 8 \/ n = 9 \/
          n = 10 \/ n = 11 \/ n = 12 \/ n = 13 \/ n = 14 \/ n = 15) by lia.
  repeat destruct H as [->|H]; try subst n; (split; [|vm_compute; intuition congruence]).
  all: match goal with |- hex_digit ?c ?d => let c' := eval vm_compute in c in change c with c' end.
  all: match goal with
       | |- hex_digit ?c ?d => first
           [ change c with (48 + d); apply hex_09; lia
           | change c with (97 + (d - 10)); apply hex_af; lia ]
       end.
Qed.

Lemma hex_encode_spec bs : Forall byte_ok bs ->
  exists ds, Forall2 hex_digit (hex_encode bs) ds /\ Forall lower_hex (hex_encode bs) /\
    length ds = (2 * length bs)%nat /\
    value16 ds = fold_left (fun acc b => acc * 256 + b) bs 0.
Proof.
  assert (Hgen : Forall byte_ok bs ->
    exists ds, Forall2 hex_digit (hex_encode bs) ds /\ Forall lower_hex (hex_encode bs) /\
      length ds = (2 * length bs)%nat /\
      forall acc, fold_left (fun acc b => acc * 256 + b) bs acc
                  = acc * 256 ^ Z.of_nat (length bs) + value16 ds).
  { induction 1 as [|b bs Hb _ (ds & H1 & H2 & H3 & H4)].
    - exists []. repeat split; [constructor|constructor|]. intros; cbn. rewrite Z.pow_0_r. lia.
    - exists (b / 16 :: b mod 16 :: ds).
      unfold hex_encode in *. cbn [map concat app]. rewrite Z.shiftr_div_pow2 by lia. change (2^4) with 16.
      rewrite land15.
      assert (0 <= b / 16 < 16) by zlia. assert (0 <= b mod 16 < 16) by zlia.
      repeat split.
      + constructor; [by apply hextable_nth|]. constructor; [by apply hextable_nth|]. done.
      + constructor; [by apply hextable_nth|]. constructor; [by apply hextable_nth|]. done.
      + cbn [length]. lia.
      + intros acc. cbn [fold_left length value16]. rewrite H4, H3.
        replace (Z.of_nat (S (2 * length bs))) with (Z.of_nat (2 * length bs) + 1) by lia.
        rewrite Z.pow_add_r by lia.
        replace (16 ^ Z.of_nat (2 * length bs)) with (256 ^ Z.of_nat (length bs)).
        2:{ rewrite Nat2Z.inj_mul. rewrite Z.pow_mul_r by lia. reflexivity. }
        rewrite Nat2Z.inj_succ, Z.pow_succ_r by lia.
        set (P := 256 ^ Z.of_nat (length bs)).
        assert (b = 16 * (b / 16) + b mod 16) by (apply Z.div_mod; lia). nia. }
  intros H. destruct (Hgen H) as (ds & H1 & H2 & H3 & H4). exists ds. repeat split; try done.
  rewrite H4. lia.
Qed.

Lemma id_be_bytes_ok id : Forall byte_ok (id_be_bytes id).
Proof.
  unfold id_be_bytes. apply Forall_fmap, Forall_true. intros k. cbn. rewrite land255. zlia.
Qed.

Lemma split_byte id k : 0 <= k -> id mod 2^(k+8) = ((id / 2^k) mod 256) * 2^k + id mod 2^k.
Proof.
  intros Hk. rewrite Z.pow_add_r by lia. change (2^8) with 256.
  rewrite Z.rem_mul_r by (try apply Z.pow_nonzero; lia). lia.
Qed.

Lemma id_be_bytes_value id : fold_left (fun acc b => acc * 256 + b) (id_be_bytes id) 0 = u64 id.
Proof.
  unfold id_be_bytes. cbn [map fold_left]. rewrite !Z.shiftr_div_pow2, !land255 by lia.
  unfold u64.
  pose proof (split_byte id 56 ltac:(lia)) as H7. pose proof (split_byte id 48 ltac:(lia)) as H6.
  pose proof (split_byte id 40 ltac:(lia)) as H5. pose proof (split_byte id 32 ltac:(lia)) as H4.
  pose proof (split_byte id 24 ltac:(lia)) as H3. pose proof (split_byte id 16 ltac:(lia)) as H2.
  pose proof (split_byte id 8 ltac:(lia)) as H1.
  change (56+8) with 64 in H7. change (48+8) with 56 in H6. change (40+8) with 48 in H5.
  change (32+8) with 40 in H4. change (24+8) with 32 in H3. change (16+8) with 24 in H2.
  change (8+8) with 16 in H1.
  rewrite H7, H6, H5, H4, H3, H2, H1. change (2^0) with 1. rewrite Z.div_1_r.
  set (a7 := id / 2^56 mod 256). set (a6 := id / 2^48 mod 256). set (a5 := id / 2^40 mod 256).
  set (a4 := id / 2^32 mod 256). set (a3 := id / 2^24 mod 256). set (a2 := id / 2^16 mod 256).
  set (a1 := id / 2^8 mod 256). change (2^8) with 256. change (2^16) with 65536. change (2^24) with 16777216.
  change (2^32) with 4294967296. change (2^40) with 1099511627776. change (2^48) with 281474976710656.
  change (2^56) with 72057594037927936. lia.
Qed.

Lemma id_string_spec id :
  length (id_string id) = 16%nat /\ Forall lower_hex (id_string id) /\ denotes16 (id_string id) (u64 id).
Proof.
  unfold id_string. destruct (hex_encode_spec _ (id_be_bytes_ok id)) as (ds & H1 & H2 & H3 & H4).
  split; [|split; [done|]].
  - rewrite (Forall2_length _ _ _ H1), H3. reflexivity.
  - exists ds. split; [done|]. rewrite H4. symmetry. apply id_be_bytes_value.
Qed.

Lemma parse_id_string id : int64_ok id -> parse_id (id_string id) = Some id.
Proof.
  intros Hid. apply parse_id_spec. destruct (id_string_spec id) as (H1 & _ & H2).
  split; [lia|]. exists (u64 id). split; [done|]. apply signed64_wrap. rewrite wrap64_u64, wrap64_id; done.
Qed.

Lemma unmarshal_marshal id : int64_ok id -> id_unmarshal_json (id_marshal_json id) = Some id.
Proof.
  intros Hid. unfold id_unmarshal_json, id_marshal_json. fold (id_string id).
  destruct (id_string_spec id) as (Hl & _ & _).
  cbn [length head]. rewrite app_length, Hl. cbn [length].
  rewrite app_comm_cons, last_snoc. rewrite !bool_decide_true by done.
  replace (S (16 + 1) <? 2)%nat with false by done. cbn [orb negb skipn app]. rewrite drop_0.
  rewrite take_app_alt by lia. by apply parse_id_string.
Qed.

(** [UnmarshalJSON] accepts exactly the quoted texts that [ParseId] accepts. *)
Lemma unmarshal_spec bs v :
  id_unmarshal_json bs = Some v <->
  exists t, bs = 34 :: t ++ [34] /\ parse_id t = Some v.
Proof.
  unfold id_unmarshal_json. split.
  - intros H. destruct (_ || _ || _) eqn:E; [done|].
    apply orb_false_iff in E as [E E3]. apply orb_false_iff in E as [E1 E2].
    apply Nat.ltb_ge in E1. apply negb_false_iff, bool_decide_eq_true in E2, E3.
    destruct bs as [|c bs]; [done|]. cbn in E2. injection E2 as ->.
    destruct bs as [|b bs' _] using rev_ind; [cbn in E1; lia|].
    rewrite app_comm_cons, last_snoc in E3. injection E3 as ->.
    exists bs'. split; [done|]. cbn [length skipn] in H. rewrite drop_0, app_length in H. cbn [length] in H.
    rewrite take_app_alt in H by (cbn; lia). done.
  - intros (t & -> & H). cbn [length head]. rewrite app_length. cbn [length].
    rewrite app_comm_cons, last_snoc. rewrite !bool_decide_true by done.
    replace (S (length t + 1) <? 2)%nat with false by (symmetry; apply Nat.ltb_ge; lia).
    cbn [orb negb skipn app]. rewrite drop_0.
    rewrite take_app_alt by lia. done.
Qed.
