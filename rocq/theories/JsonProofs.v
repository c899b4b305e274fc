(** Lemmas about the buffered JSON parser. *)
From Verif Require Import Base JsonModel CodecModel JsonPure JsonSpec.

(* ---------- escapes ---------- *)

Lemma encode_rune_length r : (1 <= length (encode_rune r) <= 3)%nat.
Proof. unfold encode_rune. repeat case_match; cbn; lia. Qed.

Lemma length_splice buf i bs : (i + length bs <= length buf)%nat -> length (splice buf i bs) = length buf.
Proof. intros H. unfold splice. rewrite !app_length, take_length, drop_length. lia. Qed.
Lemma drop_splice buf i bs j : (i + length bs <= length buf)%nat -> (i + length bs <= j)%nat -> drop j (splice buf i bs) = drop j buf.
Proof.
  intros H1 H2. unfold splice. rewrite drop_app_ge by (rewrite take_length; lia). rewrite take_length.
  rewrite drop_app_ge by lia. rewrite drop_drop. f_equal. lia.
Qed.
Lemma take_splice buf i bs : (i + length bs <= length buf)%nat -> take (i + length bs) (splice buf i bs) = take i buf ++ bs.
Proof.
  intros H. unfold splice. rewrite app_assoc. rewrite take_app_le.
  - apply take_ge. rewrite app_length, take_length. lia.
  - rewrite app_length, take_length. lia.
Qed.
Lemma take_splice_le buf i bs j : (i + length bs <= length buf)%nat -> (j <= i)%nat -> take j (splice buf i bs) = take j buf.
Proof. intros H1 H2. unfold splice. rewrite take_app_le by (rewrite take_length; lia). rewrite take_take. f_equal. lia. Qed.

Lemma take_insert_S {A} (l : list A) w x : (w < length l)%nat -> take (S w) (<[w := x]> l) = take w l ++ [x].
Proof.
  revert w. induction l as [|y l IH]; intros w Hw; [cbn in Hw; lia|]. destruct w as [|w]; cbn [length] in Hw.
  - cbn. by rewrite take_0.
  - cbn. f_equal. apply IH. lia.
Qed.

Lemma drop_S_lookup {A} (l : list A) i x : l !! i = Some x -> drop i l = x :: drop (S i) l.
Proof. intros H. by apply drop_S. Qed.

Lemma decode_in_place_spec : forall fuel mem idx w, (w <= idx)%nat -> (idx <= length mem)%nat -> (length mem - idx <= fuel)%nat ->
  match unescape (drop idx mem) with
  | None => decode_in_place fuel mem idx w = DecErr
  | Some v => exists mem', decode_in_place fuel mem idx w = DecOk mem' (w + length v) /\ length mem' = length mem /\
      take (w + length v) mem' = take w mem ++ v /\ (w + length v <= length mem)%nat
  end.
Proof.
  induction fuel as [|fuel IH]; intros mem idx w Hw Hi Hf; cbn [decode_in_place].
  - assert (Hd : drop idx mem = []) by (apply drop_ge; lia). rewrite Hd. cbn [unescape].
    replace (length mem <=? idx)%nat with true by lia.
    exists mem. cbn [length]. rewrite Nat.add_0_r, app_nil_r. split; [done|]. split; [done|]. split; [done|]. lia.
  - destruct (Nat.leb_spec (length mem) idx) as [Hge|Hlt].
    { assert (Hd : drop idx mem = []) by (apply drop_ge; lia). rewrite Hd. cbn [unescape].
      exists mem. cbn [length]. rewrite Nat.add_0_r, app_nil_r. split; [done|]. split; [done|]. split; [done|]. lia. }
    destruct (mem !! idx) as [ch|] eqn:E0; [|apply lookup_ge_None in E0; lia].
    rewrite (drop_S_lookup _ _ _ E0). cbn [unescape]. replace (w <? length mem)%nat with true by lia.
    change ch_backslash with 92. destruct (negb (ch =? 92)) eqn:Eb.
    { specialize (IH (<[w := ch]> mem) (S idx) (S w)). rewrite insert_length in IH.
      specialize (IH ltac:(lia) ltac:(lia) ltac:(lia)). rewrite drop_insert_gt in IH by lia.
      destruct (unescape (drop (S idx) mem)) as [v|]; cbn [option_map]; [|exact IH].
      destruct IH as (mem' & -> & Hl & Ht & Hle). exists mem'. cbn [length].
      split; [f_equal; lia|]. split; [done|]. split; [|lia]. rewrite take_insert_S in Ht by lia.
      rewrite <- app_assoc in Ht. replace (w + S (length v))%nat with (S w + length v)%nat by lia. done. }
    destruct (Nat.leb_spec (length mem) (idx + 1)) as [Hge1|Hlt1].
    { assert (Hd : drop (S idx) mem = []) by (apply drop_ge; lia). by rewrite Hd. }
    destruct (mem !! (idx + 1)%nat) as [c1|] eqn:E1; [|apply lookup_ge_None in E1; lia].
    rewrite Nat.add_1_r in E1. rewrite (drop_S_lookup _ _ _ E1).
    destruct (negb (c1 =? 117)) eqn:Eu.
    { specialize (IH (<[w := c1]> mem) (idx + 2)%nat (S w)). rewrite insert_length in IH.
      specialize (IH ltac:(lia) ltac:(lia) ltac:(lia)). rewrite drop_insert_gt in IH by lia.
      replace (idx + 2)%nat with (S (S idx)) in * by lia.
      destruct (unescape (drop (S (S idx)) mem)) as [v|]; cbn [option_map]; [|exact IH].
      destruct IH as (mem' & -> & Hl & Ht & Hle). exists mem'. cbn [length].
      split; [f_equal; lia|]. split; [done|]. split; [|lia]. rewrite take_insert_S in Ht by lia.
      rewrite <- app_assoc in Ht. replace (w + S (length v))%nat with (S w + length v)%nat by lia. done. }
    destruct (Nat.leb_spec (length mem) (idx + 1 + 4)) as [Hge5|Hlt5].
    { assert (Hl : (length (drop (S (S idx)) mem) < 4)%nat) by (rewrite drop_length; lia).
      destruct (drop (S (S idx)) mem) as [|? [|? [|? [|? ?]]]]; cbn in Hl; (done || lia). }
    destruct (mem !! (idx + 2)%nat) as [a|] eqn:Ea; [|apply lookup_ge_None in Ea; lia].
    destruct (mem !! (idx + 3)%nat) as [b|] eqn:Eb2; [|apply lookup_ge_None in Eb2; lia].
    destruct (mem !! (idx + 4)%nat) as [c|] eqn:Ec; [|apply lookup_ge_None in Ec; lia].
    destruct (mem !! (idx + 5)%nat) as [d|] eqn:Ed; [|apply lookup_ge_None in Ed; lia].
    replace (idx + 2)%nat with (S (S idx)) in * by lia. replace (idx + 3)%nat with (S (S (S idx))) in * by lia.
    replace (idx + 4)%nat with (S (S (S (S idx)))) in * by lia. replace (idx + 5)%nat with (S (S (S (S (S idx))))) in * by lia.
    rewrite (drop_S_lookup _ _ _ Ea), (drop_S_lookup _ _ _ Eb2), (drop_S_lookup _ _ _ Ec), (drop_S_lookup _ _ _ Ed).
    destruct (hex_digit a) as [xa|]; [|done]. destruct (hex_digit b) as [xb|]; [|done].
    destruct (hex_digit c) as [xc|]; [|done]. destruct (hex_digit d) as [xd|]; [|done].
    replace (length mem <? w + 4)%nat with false by lia.
    set (enc := encode_rune _). pose proof (encode_rune_length (((xa * 16 + xb) * 16 + xc) * 16 + xd)) as Hel. fold enc in Hel.
    specialize (IH (splice mem w enc) (idx + 6)%nat (w + length enc)%nat). rewrite length_splice in IH by lia.
    specialize (IH ltac:(lia) ltac:(lia) ltac:(lia)). rewrite drop_splice in IH by lia.
    replace (idx + 6)%nat with (S (S (S (S (S (S idx)))))) in * by lia.
    destruct (unescape (drop (S (S (S (S (S (S idx)))))) mem)) as [v|]; cbn [option_map]; [|exact IH].
    destruct IH as (mem' & -> & Hl & Ht & Hle). exists mem'. rewrite app_length.
    split; [f_equal; lia|]. split; [done|]. split; [|lia]. rewrite take_splice in Ht by lia.
    rewrite <- app_assoc in Ht. rewrite Nat.add_assoc. done.
Qed.

Lemma decode_in_place_0 mem :
  match unescape mem with
  | None => decode_in_place (length mem) mem 0 0 = DecErr
  | Some v => exists mem', decode_in_place (length mem) mem 0 0 = DecOk mem' (length v) /\ length mem' = length mem /\ take (length v) mem' = v
  end.
Proof.
  pose proof (decode_in_place_spec (length mem) mem 0 0 ltac:(lia) ltac:(lia) ltac:(lia)) as H. rewrite drop_0 in H.
  destruct (unescape mem); [|done]. destruct H as (mem' & H1 & H2 & H3 & _). exists mem'. cbn [Nat.add] in *.
  rewrite take_0 in H3. done.
Qed.

Lemma hex_digit_is c v : hex_digit c = Some v <-> hex_is c v.
Proof.
  unfold hex_digit, hex_is. repeat case_match; split; intros H'; try (injection H' as <-); try discriminate; lia || (f_equal; lia).
Qed.

Lemma hex_is_range c v : hex_is c v -> 0 <= v < 16.
Proof. unfold hex_is. lia. Qed.

Lemma lor_shift k n d : 0 <= n -> 0 <= d < 2 ^ n -> forall x, x = k * 2 ^ n -> Z.lor x d = x + d.
Proof. intros Hn Hd x ->. by apply lor_disjoint. Qed.

Lemma encode_rune_utf8 r : 0 <= r < 65536 -> encode_rune r = if decide (surrogate r) then utf8 65533 else utf8 r.
Proof.
  intros Hr. unfold encode_rune, utf8, surrogate.
  assert (H63 : forall z, Z.land z 63 = z mod 64) by (intros z; change 63 with (Z.ones 6); by rewrite Z.land_ones by lia).
  rewrite !H63, !Z.shiftr_div_pow2 by lia. change (2 ^ 6) with 64. change (2 ^ 12) with 4096.
  destruct (Z.leb_spec r 127) as [H1|H1].
  { rewrite decide_False by lia. by replace (r <? 128) with true by lia. }
  destruct (Z.leb_spec r 2047) as [H2|H2].
  { rewrite decide_False by lia. replace (r <? 128) with false by lia. replace (r <? 2048) with true by lia.
    rewrite (lor_shift 6 5) by (try done; change (2^5) with 32; zlia).
    rewrite (lor_shift 2 6) by (try done; change (2^6) with 64; zlia). done. }
  destruct ((55296 <=? r) && (r <=? 57343)) eqn:E.
  { rewrite decide_True by lia. vm_compute. done. }
  rewrite decide_False by lia. replace (r <? 128) with false by lia. replace (r <? 2048) with false by lia. replace (r <? 65536) with true by lia.
  rewrite (lor_shift 14 4) by (try done; change (2^4) with 16; zlia).
  rewrite (lor_shift 2 6 (r / 64 mod 64)) by (try done; change (2^6) with 64; zlia).
  rewrite (lor_shift 2 6) by (try done; change (2^6) with 64; zlia). done.
Qed.

Lemma unescape_complete l v : unescaped l v -> unescape l = Some v.
Proof.
  induction 1 as [|c l v Hc _ IH|c l v Hc _ IH|a b c d cp l v Hh _ IH]; cbn [unescape]; [done| | |].
  - replace (c =? 92) with false by lia. cbn. by rewrite IH.
  - change (92 =? 92) with true. cbn. replace (c =? 117) with false by lia. cbn. by rewrite IH.
  - change (92 =? 92) with true. change (117 =? 117) with true. cbn [negb].
    destruct Hh as (x & y & z & w & Ha & Hb & Hc & Hd & Hv).
    pose proof (hex_is_range _ _ Ha). pose proof (hex_is_range _ _ Hb). pose proof (hex_is_range _ _ Hc). pose proof (hex_is_range _ _ Hd).
    apply hex_digit_is in Ha as ->. apply hex_digit_is in Hb as ->. apply hex_digit_is in Hc as ->. apply hex_digit_is in Hd as ->.
    rewrite IH. cbn [option_map]. rewrite encode_rune_utf8 by lia.
    replace (((x * 16 + y) * 16 + z) * 16 + w) with cp by lia. done.
Qed.

Lemma unescape_sound l : forall v, unescape l = Some v -> unescaped l v.
Proof.
  remember (length l) as n eqn:En. assert (Hn : (length l <= n)%nat) by lia. clear En. revert l Hn.
  induction n as [|n IH]; intros l Hn v.
  { destruct l; [|cbn in Hn; lia]. cbn. intros [= <-]. constructor. }
  destruct l as [|c l1]; cbn [unescape].
  { intros [= <-]. constructor. }
  cbn [length] in Hn. destruct (negb (c =? 92)) eqn:Ec.
  { destruct (unescape l1) as [v1|] eqn:E1; [|done]. intros [= <-]. constructor; [lia|]. apply IH; [lia|done]. }
  assert (c = 92) as -> by lia.
  destruct l1 as [|c l2]; [done|]. cbn [length] in Hn. destruct (negb (c =? 117)) eqn:Eu.
  { destruct (unescape l2) as [v1|] eqn:E1; [|done]. intros [= <-]. constructor; [lia|]. apply IH; [lia|done]. }
  assert (c = 117) as -> by lia.
  destruct l2 as [|a [|b [|c [|d l3]]]]; try done. cbn [length] in Hn.
  destruct (hex_digit a) as [x|] eqn:Ea; [|done]. destruct (hex_digit b) as [y|] eqn:Eb; [|done].
  destruct (hex_digit c) as [z|] eqn:Ecc; [|done]. destruct (hex_digit d) as [w|] eqn:Ed; [|done].
  apply hex_digit_is in Ea. apply hex_digit_is in Eb. apply hex_digit_is in Ecc. apply hex_digit_is in Ed.
  pose proof (hex_is_range _ _ Ea). pose proof (hex_is_range _ _ Eb). pose proof (hex_is_range _ _ Ecc). pose proof (hex_is_range _ _ Ed).
  destruct (unescape l3) as [v1|] eqn:E1; [|done]. intros [= <-].
  rewrite encode_rune_utf8 by lia. constructor; [|apply IH; [lia|done]].
  exists x, y, z, w. repeat (split; [done|]). lia.
Qed.

Lemma unescape_iff l v : unescape l = Some v <-> unescaped l v.
Proof. split; [apply unescape_sound|apply unescape_complete]. Qed.

(** C20. *)
Lemma in_place_is_copying mem :
  (exists v mem', unescaped mem v /\ decode_in_place (length mem) mem 0 0 = DecOk mem' (length v) /\
      length mem' = length mem /\ take (length v) mem' = v) \/
  ((forall v, ~ unescaped mem v) /\ decode_in_place (length mem) mem 0 0 = DecErr).
Proof.
  pose proof (decode_in_place_0 mem) as H. destruct (unescape mem) as [v|] eqn:E.
  - left. destruct H as (mem' & H1 & H2 & H3). exists v, mem'. split; [by apply unescape_sound|done].
  - right. split; [|done]. intros v Hv. apply unescape_complete in Hv. congruence.
Qed.

(** C21. *)
Lemma simple_is_json raw v : simple_string raw v -> Forall (fun c => 32 <= c) raw -> json_string raw v.
Proof.
  induction 1 as [|c l v H1 H2 _ IH|l v _ IH|l v _ IH|l v _ IH|a b c d cp l v Hh Hs _ IH]; intros HF.
  - constructor.
  - inversion HF; subst. constructor; auto.
  - inversion HF as [|? ? ? HF1]; subst. inversion HF1; subst. apply js_quote; auto.
  - inversion HF as [|? ? ? HF1]; subst. inversion HF1; subst. apply js_backslash; auto.
  - inversion HF as [|? ? ? HF1]; subst. inversion HF1; subst. apply js_slash; auto.
  - constructor; auto. apply IH. do 6 (apply Forall_cons in HF as [_ HF]). done.
Qed.

Lemma simple_unescape raw v : simple_string raw v -> unescape raw = Some v.
Proof.
  intros H. apply unescape_complete.
  induction H as [|c l v H1 H2 _ IH|l v _ IH|l v _ IH|l v _ IH|a b c d cp l v Hh Hs _ IH].
  - constructor.
  - by constructor.
  - by apply un_esc.
  - by apply un_esc.
  - by apply un_esc.
  - rewrite <- (decide_False (P := surrogate cp) (utf8 65533) (utf8 cp)) by done. by constructor.
Qed.
