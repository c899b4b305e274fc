(** Lemmas about ids and timestamps used by PropIds. *)
From Verif Require Import Base IdModel IdSpec IdProofs SpanModel.

Lemma id_roundtrip_all id : int64_ok id ->
    parse_id (id_string id) = Some id /\
    length (id_string id) = 16%nat /\
    Forall lower_hex (id_string id) /\
    id_marshal_json id = [34] ++ id_string id ++ [34] /\
    id_unmarshal_json (id_marshal_json id) = Some id.
Proof.
  intros H. destruct (id_string_spec id) as (H1 & H2 & _).
  split; [by apply parse_id_string|]. do 2 (split; [done|]). split; [done|]. by apply unmarshal_marshal.
Qed.

Lemma hex_digit_inj c d1 d2 : hex_digit c d1 -> hex_digit c d2 -> d1 = d2.
Proof. intros H1 H2. inversion H1; inversion H2; lia. Qed.

Lemma denotes16_fun t n1 n2 : denotes16 t n1 -> denotes16 t n2 -> n1 = n2.
Proof.
  intros (ds1 & H1 & ->) (ds2 & H2 & ->). f_equal. revert ds2 H2.
  induction H1 as [|c d t ds1 Hd _ IH]; intros ds2 H2; inversion H2; subst; [done|].
  f_equal; [by eapply hex_digit_inj|auto].
Qed.

Lemma parse_id_injective t1 t2 v1 v2 n1 n2 :
    parse_id t1 = Some v1 -> parse_id t2 = Some v2 ->
    denotes16 t1 n1 -> denotes16 t2 n2 ->
    (v1 = v2 <-> n1 = n2).
Proof.
  intros H1 H2 D1 D2. apply parse_id_spec in H1 as [L1 (m1 & M1 & S1)].
  apply parse_id_spec in H2 as [L2 (m2 & M2 & S2)].
  rewrite (denotes16_fun _ _ _ M1 D1) in S1. rewrite (denotes16_fun _ _ _ M2 D2) in S2.
  pose proof (denotes16_range _ _ D1 L1). pose proof (denotes16_range _ _ D2 L2).
  unfold signed64 in *. split; intros; subst; zlia.
Qed.

Lemma parse_id_rejects t :
  (16 < length t)%nat \/ (exists c, c ∈ t /\ forall d, ~ hex_digit c d) -> parse_id t = None.
Proof.
  intros H. destruct (parse_id t) as [v|] eqn:E; [|done]. exfalso.
  apply parse_id_spec in E as [L (n & (ds & Hds & _) & _)].
  destruct H as [H|(c & Hc & Hn)]; [lia|].
  apply elem_of_list_lookup in Hc as [i Hi].
  destruct (Forall2_lookup_l _ _ _ _ _ Hds Hi) as (d & _ & Hd). by eapply Hn.
Qed.

Lemma micros_roundtrip us : int64_ok (us * 1000) -> microseconds us = us * 1000 /\ to_micros (microseconds us) = us.
Proof.
  intros H. unfold microseconds, to_micros, microsecond. rewrite wrap64_id by done. split; [done|].
  apply Z.quot_mul. lia.
Qed.

Lemma micros_wrap us : int64_ok us ->
    - 2^63 <= microseconds us < 2^63 /\ (microseconds us - us * 1000) mod 2^64 = 0.
Proof. intros H. unfold microseconds, microsecond. zlia. Qed.

Lemma millis_spec ts :
  Z.abs (to_millis ts) = Z.abs ts / 1000000 /\ (0 <= ts -> 0 <= to_millis ts) /\ (ts <= 0 -> to_millis ts <= 0).
Proof.
  unfold to_millis, millisecond. rewrite <- Z.quot_abs by lia. rewrite Z.quot_div_nonneg by lia.
  split; [done|]. split; intros; [apply Z.quot_pos; lia|].
  destruct (decide (ts = 0)) as [->|]; [done|].
  rewrite <- (Z.opp_involutive ts), Z.quot_opp_l by lia. pose proof (Z.quot_pos (-ts) 1000000). lia.
Qed.
