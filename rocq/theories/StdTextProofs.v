(** Proofs about strings and numbers read by encoding/json. *)
From Verif Require Import Base IdModel IdSpec JsonModel JsonSpec JsonProofs CodecModel DocSpec JaegerModel StdJsonModel StdJsonSpec StdJsonProofs.

(* ---------- characters ---------- *)
Lemma between_spec lo hi c : between lo hi c = true <-> lo <= c <= hi.
Proof. unfold between. lia. Qed.

(** A character of more than one byte. *)
Lemma utf8_long cp l : 128 <= cp <= 1114111 -> ~ surrogate cp ->
  exists x tl, utf8 cp = x :: tl /\ 128 <= x /\ Forall (fun c => 128 <= c) tl /\ rune_tail x (tl ++ l) = Some (length tl).
Proof.
  intros Hr Hs. unfold surrogate in Hs. unfold utf8.
  destruct (Z.ltb_spec cp 128); [lia|]. destruct (Z.ltb_spec cp 2048).
  { eexists _, _. split; [reflexivity|]. split; [zlia|]. split; [repeat constructor; zlia|]. cbn [app length]. unfold rune_tail.
    assert (E : between 194 223 (192 + cp / 64) = true) by (apply between_spec; zlia). rewrite E. unfold cont1.
    assert (E1 : between 128 191 (128 + cp mod 64) = true) by (apply between_spec; zlia). by rewrite E1. }
  destruct (Z.ltb_spec cp 65536).
  { eexists _, _. split; [reflexivity|]. split; [zlia|]. split; [repeat constructor; zlia|]. cbn [app length]. unfold rune_tail.
    assert (E : between 194 223 (224 + cp / 4096) = false) by (apply not_true_iff_false; rewrite between_spec; zlia). rewrite E.
    assert (E1 : between 128 191 (128 + cp mod 64) = true) by (apply between_spec; zlia).
    assert (E2 : between 128 191 (128 + cp / 64 mod 64) = true) by (apply between_spec; zlia).
    destruct (Z.eqb_spec (224 + cp / 4096) 224) as [E0|N0].
    - unfold cont2, cont1. rewrite E1. replace (between 160 191 (128 + cp / 64 mod 64)) with true; [done|]. symmetry. apply between_spec. zlia.
    - destruct (between 225 236 (224 + cp / 4096) || between 238 239 (224 + cp / 4096)) eqn:Eb.
      + unfold cont2, cont1. by rewrite E1, E2.
      + apply orb_false_iff in Eb as [Ea Eb]. apply not_true_iff_false in Ea, Eb. rewrite between_spec in Ea, Eb.
        destruct (Z.eqb_spec (224 + cp / 4096) 237) as [E3|N3]; [|zlia].
        unfold cont2, cont1. rewrite E1. replace (between 128 159 (128 + cp / 64 mod 64)) with true; [done|]. symmetry. apply between_spec. zlia. }
  eexists _, _. split; [reflexivity|]. split; [zlia|]. split; [repeat constructor; zlia|]. cbn [app length]. unfold rune_tail.
  assert (E : between 194 223 (240 + cp / 262144) = false) by (apply not_true_iff_false; rewrite between_spec; zlia). rewrite E.
  assert (Ea : between 225 236 (240 + cp / 262144) = false) by (apply not_true_iff_false; rewrite between_spec; zlia). rewrite Ea.
  assert (Eb : between 238 239 (240 + cp / 262144) = false) by (apply not_true_iff_false; rewrite between_spec; zlia). rewrite Eb.
  destruct (Z.eqb_spec (240 + cp / 262144) 224); [zlia|]. destruct (Z.eqb_spec (240 + cp / 262144) 237); [zlia|]. cbn [orb].
  assert (E1 : between 128 191 (128 + cp mod 64) = true) by (apply between_spec; zlia).
  assert (E2 : between 128 191 (128 + cp / 64 mod 64) = true) by (apply between_spec; zlia).
  assert (E3 : between 128 191 (128 + cp / 4096 mod 64) = true) by (apply between_spec; zlia).
  destruct (Z.eqb_spec (240 + cp / 262144) 240) as [E0|N0].
  - unfold cont3, cont2, cont1. rewrite E1, E2. replace (between 144 191 (128 + cp / 4096 mod 64)) with true; [done|]. symmetry. apply between_spec. zlia.
  - destruct (between 241 243 (240 + cp / 262144)) eqn:Ec.
    + unfold cont3, cont2, cont1. by rewrite E1, E2, E3.
    + apply not_true_iff_false in Ec. rewrite between_spec in Ec. destruct (Z.eqb_spec (240 + cp / 262144) 244); [|zlia].
      unfold cont3, cont2, cont1. rewrite E1, E2. replace (between 128 143 (128 + cp / 4096 mod 64)) with true; [done|]. symmetry. apply between_spec. zlia.
Qed.
Lemma utf8_short cp : cp < 128 -> utf8 cp = [cp].
Proof. intros H. unfold utf8. destruct (Z.ltb_spec cp 128); [done|lia]. Qed.

(** What [rune_tail] accepts is a character. *)
Lemma cont1_spec r : cont1 r = true -> exists a r', r = a :: r' /\ 128 <= a <= 191.
Proof. destruct r as [|a r']; [done|]. cbn [cont1]. rewrite between_spec. intros H. by exists a, r'. Qed.
Lemma cont2_spec lo hi r : cont2 lo hi r = true -> exists a b r', r = a :: b :: r' /\ lo <= a <= hi /\ 128 <= b <= 191.
Proof.
  destruct r as [|a r1]; [done|]. cbn [cont2]. rewrite andb_true_iff, between_spec. intros [H1 (b & r' & -> & H2)%cont1_spec].
  by exists a, b, r'.
Qed.
Lemma cont3_spec lo hi r : cont3 lo hi r = true -> exists a b c r', r = a :: b :: c :: r' /\ lo <= a <= hi /\ 128 <= b <= 191 /\ 128 <= c <= 191.
Proof.
  destruct r as [|a r1]; [done|]. cbn [cont3]. rewrite andb_true_iff, between_spec. intros [H1 (b & c & r' & -> & H2)%cont2_spec].
  by exists a, b, c, r'.
Qed.
Lemma rune_two x a : 194 <= x <= 223 -> 128 <= a <= 191 -> exists cp, 0 <= cp <= 1114111 /\ ~ surrogate cp /\ utf8 cp = [x; a].
Proof.
  intros Hx Ha. exists ((x - 192) * 64 + (a - 128)). unfold surrogate, utf8. split; [lia|]. split; [lia|].
  destruct (Z.ltb_spec ((x - 192) * 64 + (a - 128)) 128); [lia|]. destruct (Z.ltb_spec ((x - 192) * 64 + (a - 128)) 2048); [|lia].
  f_equal; [zlia|]. f_equal. zlia.
Qed.
Lemma rune_three x a b : 224 <= x <= 239 -> (x = 224 -> 160 <= a) -> (x = 237 -> a <= 159) -> 128 <= a <= 191 -> 128 <= b <= 191 ->
  exists cp, 0 <= cp <= 1114111 /\ ~ surrogate cp /\ utf8 cp = [x; a; b].
Proof.
  intros Hx H1 H2 Ha Hb. exists ((x - 224) * 4096 + (a - 128) * 64 + (b - 128)). unfold surrogate, utf8. set (cp := (x - 224) * 4096 + (a - 128) * 64 + (b - 128)).
  assert (2048 <= cp < 65536) by (unfold cp; lia).
  split; [lia|]. split; [unfold cp; lia|]. destruct (Z.ltb_spec cp 128); [lia|]. destruct (Z.ltb_spec cp 2048); [lia|]. destruct (Z.ltb_spec cp 65536); [|lia].
  unfold cp. f_equal; [zlia|]. f_equal; [zlia|]. f_equal. zlia.
Qed.
Lemma rune_four x a b c : 240 <= x <= 244 -> (x = 240 -> 144 <= a) -> (x = 244 -> a <= 143) -> 128 <= a <= 191 -> 128 <= b <= 191 -> 128 <= c <= 191 ->
  exists cp, 0 <= cp <= 1114111 /\ ~ surrogate cp /\ utf8 cp = [x; a; b; c].
Proof.
  intros Hx H1 H2 Ha Hb Hc. exists ((x - 240) * 262144 + (a - 128) * 4096 + (b - 128) * 64 + (c - 128)). unfold surrogate, utf8.
  set (cp := (x - 240) * 262144 + (a - 128) * 4096 + (b - 128) * 64 + (c - 128)).
  assert (65536 <= cp <= 1114111) by (unfold cp; lia).
  split; [lia|]. split; [lia|]. destruct (Z.ltb_spec cp 128); [lia|]. destruct (Z.ltb_spec cp 2048); [lia|]. destruct (Z.ltb_spec cp 65536); [lia|].
  unfold cp. f_equal; [zlia|]. f_equal; [zlia|]. f_equal; [zlia|]. f_equal. zlia.
Qed.
Lemma rune_tail_sound x r n : rune_tail x r = Some n ->
  128 <= x /\ exists tl r', r = tl ++ r' /\ length tl = n /\ Forall (fun c => 128 <= c) tl /\ exists cp, 0 <= cp <= 1114111 /\ ~ surrogate cp /\ utf8 cp = x :: tl.
Proof.
  unfold rune_tail. intros E.
  destruct (between 194 223 x) eqn:E1.
  { apply between_spec in E1. destruct (cont1 r) eqn:Ec; [|done]. injection E as <-. apply cont1_spec in Ec as (a & r' & -> & Ha).
    split; [lia|]. exists [a], r'. split; [done|]. split; [done|]. split; [repeat constructor; lia|]. by apply rune_two. }
  destruct (Z.eqb_spec x 224) as [->|N].
  { destruct (cont2 160 191 r) eqn:Ec; [|done]. injection E as <-. apply cont2_spec in Ec as (a & b & r' & -> & Ha & Hb).
    split; [lia|]. exists [a; b], r'. split; [done|]. split; [done|]. split; [repeat constructor; lia|]. apply rune_three; lia. }
  destruct (between 225 236 x || between 238 239 x) eqn:E2.
  { rewrite orb_true_iff, !between_spec in E2. destruct (cont2 128 191 r) eqn:Ec; [|done]. injection E as <-. apply cont2_spec in Ec as (a & b & r' & -> & Ha & Hb).
    split; [lia|]. exists [a; b], r'. split; [done|]. split; [done|]. split; [repeat constructor; lia|]. apply rune_three; lia. }
  destruct (Z.eqb_spec x 237) as [->|N2].
  { destruct (cont2 128 159 r) eqn:Ec; [|done]. injection E as <-. apply cont2_spec in Ec as (a & b & r' & -> & Ha & Hb).
    split; [lia|]. exists [a; b], r'. split; [done|]. split; [done|]. split; [repeat constructor; lia|]. apply rune_three; lia. }
  destruct (Z.eqb_spec x 240) as [->|N3].
  { destruct (cont3 144 191 r) eqn:Ec; [|done]. injection E as <-. apply cont3_spec in Ec as (a & b & c & r' & -> & Ha & Hb & Hc).
    split; [lia|]. exists [a; b; c], r'. split; [done|]. split; [done|]. split; [repeat constructor; lia|]. apply rune_four; lia. }
  destruct (between 241 243 x) eqn:E3.
  { apply between_spec in E3. destruct (cont3 128 191 r) eqn:Ec; [|done]. injection E as <-. apply cont3_spec in Ec as (a & b & c & r' & -> & Ha & Hb & Hc).
    split; [lia|]. exists [a; b; c], r'. split; [done|]. split; [done|]. split; [repeat constructor; lia|]. apply rune_four; lia. }
  destruct (Z.eqb_spec x 244) as [->|N4]; [|done].
  destruct (cont3 128 143 r) eqn:Ec; [|done]. injection E as <-. apply cont3_spec in Ec as (a & b & c & r' & -> & Ha & Hb & Hc).
  split; [lia|]. exists [a; b; c], r'. split; [done|]. split; [done|]. split; [repeat constructor; lia|]. apply rune_four; lia.
Qed.

(* ---------- the text of strings ---------- *)
Lemma unquote_keep tl l : unquote (length tl) (tl ++ l) = tl ++ unquote 0 l.
Proof. induction tl as [|c tl IH]; [done|]. cbn [length app unquote]. by f_equal. Qed.
Lemma hex_val_is c v : hex_is c v -> hex_val c = v.
Proof. unfold hex_is, hex_val. intros H. destruct (Z.leb_spec c 57); [lia|]. destruct (Z.leb_spec c 70); lia. Qed.
Lemma hex4_value a b c d cp : hex4_is a b c d cp -> hex4 a b c d = cp /\ 0 <= cp < 65536.
Proof.
  intros (x & y & z & w & Ha & Hb & Hc & Hd & ->). unfold hex4. rewrite (hex_val_is a x), (hex_val_is b y), (hex_val_is c z), (hex_val_is d w) by done.
  unfold hex_is in *. lia.
Qed.
Lemma lor_add k a b : 0 <= k -> 0 <= b < 2^k -> Z.lor (a * 2^k) b = a * 2^k + b.
Proof.
  intros Hk Hb. assert (Hd : Z.land (a * 2^k) b = 0).
  { apply Z.bits_inj'; intros n Hn. rewrite Z.land_spec, Z.bits_0.
    destruct (decide (n < k)); [rewrite Z.mul_pow2_bits_low by done; done|].
    destruct (decide (b = 0)) as [->|]; [by rewrite Z.bits_0, andb_false_r|].
    rewrite (Z.bits_above_log2 b); [by rewrite andb_false_r|lia|]. assert (Z.log2 b < k) by (apply Z.log2_lt_pow2; lia). lia. }
  rewrite <- Z.lxor_lor by done. symmetry. by apply Z.add_nocarry_lxor.
Qed.
Lemma put_rune_utf8 cp : 0 <= cp <= 1114111 -> ~ surrogate cp -> put_rune cp = utf8 cp.
Proof.
  intros H Hs. unfold put_rune. destruct (Z.leb_spec cp 65535).
  - rewrite encode_rune_utf8 by lia. by rewrite decide_False.
  - unfold utf8. destruct (Z.ltb_spec cp 128); [lia|]. destruct (Z.ltb_spec cp 2048); [lia|]. destruct (Z.ltb_spec cp 65536); [lia|].
    rewrite !Z.shiftr_div_pow2 by lia.
    assert (Hl : forall x, Z.land x 63 = x mod 64) by (intros x; change 63 with (Z.ones 6); rewrite Z.land_ones by lia; done).
    rewrite !Hl. change (2^18) with 262144. change (2^12) with 4096. change (2^6) with 64.
    assert (Ho : forall x, 0 <= x < 64 -> Z.lor 128 x = 128 + x) by (intros x Hx; apply (lor_add 7 1 x); lia).
    assert (Ho2 : forall x, 0 <= x < 8 -> Z.lor 240 x = 240 + x).
    { intros x Hx. assert (x = 0 \/ x = 1 \/ x = 2 \/ x = 3 \/ x = 4 \/ x = 5 \/ x = 6 \/ x = 7) as Hc by lia.
      destruct Hc as [->|[->|[->|[->|[->|[->|[->| ->]]]]]]]; reflexivity. }
    rewrite Ho2 by zlia. rewrite !Ho by zlia. done.
Qed.
Lemma pair_value hi lo : 55296 <= hi < 56320 -> 56320 <= lo < 57344 ->
  Z.lor (Z.shiftl (hi - 55296) 10) (lo - 56320) + 65536 = 65536 + (hi - 55296) * 1024 + (lo - 56320).
Proof.
  intros Hh Hl. rewrite Z.shiftl_mul_pow2 by lia.
  rewrite (lor_add 10 (hi - 55296) (lo - 56320)) by lia. lia.
Qed.

Lemma unquote_unicode a b c d r : unquote 0 (92 :: 117 :: a :: b :: c :: d :: r) =
  let rr := hex4 a b c d in
  if between 55296 57343 rr then
    match r with
    | x' :: y' :: a' :: b' :: c' :: d' :: r3 =>
        let rr1 := hex4 a' b' c' d' in
        if (x' =? 92) && (y' =? 117) && between 55296 56319 rr && between 56320 57343 rr1
        then put_rune (Z.lor (Z.shiftl (rr - 55296) 10) (rr1 - 56320) + 65536) ++ unquote 0 r3
        else replacement ++ unquote 0 r
    | _ => replacement ++ unquote 0 r
    end
  else put_rune rr ++ unquote 0 r.
Proof. reflexivity. Qed.
Lemma unquote_pair a b c d a' b' c' d' r hi lo : hex4 a b c d = hi -> hex4 a' b' c' d' = lo -> 55296 <= hi < 56320 -> 56320 <= lo < 57344 ->
  unquote 0 (92 :: 117 :: a :: b :: c :: d :: 92 :: 117 :: a' :: b' :: c' :: d' :: r) = put_rune (Z.lor (Z.shiftl (hi - 55296) 10) (lo - 56320) + 65536) ++ unquote 0 r.
Proof.
  intros Eh El Rh Rl. rewrite unquote_unicode, Eh. cbv zeta.
  replace (between 55296 57343 hi) with true by (symmetry; apply between_spec; lia).
  replace (between 55296 56319 hi) with true by (symmetry; apply between_spec; lia). rewrite El.
  replace (between 56320 57343 lo) with true by (symmetry; apply between_spec; lia). reflexivity.
Qed.
Lemma utf8_text_byte x l : utf8_text (x :: l) -> x < 128 -> utf8_text l.
Proof.
  intros H Hx. inversion H as [|cp l' Hc Hs Hl E]. destruct (decide (cp < 128)).
  - rewrite utf8_short in E by done. cbn in E. injection E as <- ->. done.
  - destruct (utf8_long cp l') as (y & tl & Eu & Hy & _); [lia|done|]. rewrite Eu in E. cbn in E. injection E as -> _. lia.
Qed.
Lemma json_string_long tl : Forall (fun c => 128 <= c) tl -> forall l s, json_string (tl ++ l) s -> exists s', s = tl ++ s' /\ json_string l s'.
Proof.
  induction 1 as [|c tl Hc H IH]; intros l s Hj; [by exists s|]. cbn [app] in Hj.
  inversion Hj; subst; try lia. match goal with Hx : json_string (tl ++ l) ?v |- _ => apply IH in Hx as (s' & -> & Hs') end.
  by exists s'.
Qed.
Ltac ascii H := apply utf8_text_byte in H; [|unfold hex_is in *; lia].
Lemma unquote_meaning n : forall raw s, (length raw <= n)%nat -> json_string raw s -> utf8_text raw -> unquote 0 raw = s.
Proof.
  induction n as [|n IH]; intros raw s Hn Hj Hu; (destruct raw as [|x r]; [inversion Hj; reflexivity|]); cbn [length] in Hn; [lia|].
  destruct (decide (x < 128)) as [Hx|Hx].
  - inversion Hj as [|c l v H1 H2 H3 Hl|l v Hl|l v Hl|l v Hl|l v Hl|l v Hl|l v Hl|l v Hl|l v Hl|a b c d cp l v Hc Hs Hl|a b c d a' b' c' d' hi lo l v Hhi Hlo R1 R2 Hl]; subst.
    { cbn [unquote]. destruct (Z.eqb_spec x 92); [done|]. destruct (Z.ltb_spec x 128); [|lia]. f_equal. apply IH; [lia|done|]. by apply utf8_text_byte in Hu. }
    1-8: cbn [length] in Hn; ascii Hu; ascii Hu; cbn [unquote escape_byte]; cbn; f_equal; apply IH; [lia|done|done].
    + cbn [length] in Hn. destruct (hex4_value _ _ _ _ _ Hc) as [Ev Hr]. destruct Hc as (h1 & h2 & h3 & h4 & Ha & Hb & Hc & Hd & Ecp).
      do 6 ascii Hu. rewrite unquote_unicode, Ev. cbv zeta.
      destruct (between 55296 57343 cp) eqn:Eb; [apply between_spec in Eb; by destruct Hs|].
      rewrite put_rune_utf8 by (first [lia|done]). f_equal. apply IH; [lia|done|done].
    + cbn [length] in Hn. destruct (hex4_value _ _ _ _ _ Hhi) as [Ev Hr]. destruct (hex4_value _ _ _ _ _ Hlo) as [Ev' Hr'].
      destruct Hhi as (h1 & h2 & h3 & h4 & Ha & Hb & Hc & Hd & Ecp). destruct Hlo as (h1' & h2' & h3' & h4' & Ha' & Hb' & Hc' & Hd' & Ecp').
      do 12 ascii Hu. rewrite (unquote_pair _ _ _ _ _ _ _ _ _ hi lo) by done.
      rewrite pair_value by done. rewrite put_rune_utf8 by (unfold surrogate; lia). f_equal. apply IH; [lia|done|done].
  - inversion Hu as [|cp l' Hc Hs Hl E]. destruct (decide (cp < 128)).
    { rewrite utf8_short in E by done. cbn in E. injection E as -> _. lia. }
    destruct (utf8_long cp l') as (y & tl & Eu & Hy & Htl & Ht); [lia|done|]. rewrite Eu in E. cbn [app] in E. injection E as Ex Er. subst y r.
    rewrite Eu. cbn [app unquote]. destruct (Z.eqb_spec x 92); [lia|]. destruct (Z.ltb_spec x 128); [lia|]. rewrite Ht, unquote_keep.
    change (x :: tl ++ l') with ((x :: tl) ++ l') in Hj. apply json_string_long in Hj as (s' & -> & Hs'); [|by constructor].
    cbn [app]. f_equal. f_equal. apply IH; [rewrite app_length in Hn; lia|done|done].
Qed.

(** Whatever the text, the string is UTF-8. *)
Lemma utf8_text_ascii x l : 0 <= x < 128 -> utf8_text l -> utf8_text (x :: l).
Proof. intros Hx Hl. change (x :: l) with ([x] ++ l). rewrite <- (utf8_short x) by lia. constructor; [lia|unfold surrogate; lia|done]. Qed.
Lemma replacement_utf8 l : utf8_text l -> utf8_text (replacement ++ l).
Proof. intros H. change replacement with (utf8 65533). constructor; [lia|unfold surrogate; lia|done]. Qed.
Lemma string_text_long tl : Forall (fun c => 128 <= c) tl -> forall l, string_text (tl ++ l) -> string_text l.
Proof.
  induction 1 as [|c tl Hc H IH]; intros l Hj; [done|]. cbn [app] in Hj. inversion Hj; subst; try lia. by apply IH.
Qed.
Lemma hex4_range a b c d : hex a -> hex b -> hex c -> hex d -> 0 <= hex4 a b c d < 65536.
Proof.
  intros [x Ha] [y Hb] [z Hc] [w Hd]. unfold hex4. rewrite (hex_val_is a x), (hex_val_is b y), (hex_val_is c z), (hex_val_is d w) by done.
  unfold hex_is in *. lia.
Qed.
Lemma unquote_utf8 n : forall raw, (length raw <= n)%nat -> string_text raw -> utf8_text (unquote 0 raw).
Proof.
  induction n as [|n IH]; intros raw Hn Hj; (destruct raw as [|x r]; [constructor|]); cbn [length] in Hn; [lia|].
  inversion Hj as [|c l H1 H2 H3 Hl|c l Hc Hl|a b c d l Ha Hb Hc Hd Hl]; subst.
  - cbn [unquote]. destruct (Z.eqb_spec x 92); [done|]. destruct (Z.ltb_spec x 128); [apply utf8_text_ascii; [lia|]; apply IH; [lia|done]|].
    destruct (rune_tail x r) as [k|] eqn:Er; [|apply replacement_utf8; apply IH; [lia|done]].
    apply rune_tail_sound in Er as (_ & tl & r' & -> & <- & Htl & cp & Hcp & Hs & Eu). rewrite unquote_keep.
    change (x :: tl ++ unquote 0 r') with ((x :: tl) ++ unquote 0 r'). rewrite <- Eu. constructor; [done|done|].
    rewrite app_length in Hn. apply IH; [lia|]. by eapply string_text_long.
  - cbn [length] in Hn. cbn [unquote]. change (92 =? 92) with true. cbn iota. destruct (Z.eqb_spec c 117) as [->|]; [rewrite !elem_of_cons, elem_of_nil in Hc; lia|].
    assert (He : 0 <= escape_byte c < 128).
    { rewrite !elem_of_cons, elem_of_nil in Hc. unfold escape_byte. destruct (Z.eqb_spec c 98), (Z.eqb_spec c 102), (Z.eqb_spec c 110), (Z.eqb_spec c 114), (Z.eqb_spec c 116); lia. }
    apply utf8_text_ascii; [done|]. apply IH; [lia|done].
  - cbn [length] in Hn. rewrite unquote_unicode. cbv zeta.
    pose proof (hex4_range _ _ _ _ Ha Hb Hc Hd) as Hr. destruct (between 55296 57343 (hex4 a b c d)) eqn:Eb.
    + assert (Hrep : utf8_text (replacement ++ unquote 0 l)) by (apply replacement_utf8; apply IH; [lia|done]).
      destruct l as [|x' [|y' [|a' [|b' [|c' [|d' r3]]]]]]; try exact Hrep.
      destruct ((x' =? 92) && (y' =? 117) && between 55296 56319 (hex4 a b c d) && between 56320 57343 (hex4 a' b' c' d')) eqn:Ep; [|exact Hrep].
      rewrite !andb_true_iff, !Z.eqb_eq, !between_spec in Ep. destruct Ep as [[[-> ->] R1] R2].
      rewrite pair_value by lia. rewrite put_rune_utf8 by (unfold surrogate; lia). cbn [length] in Hn.
      constructor; [lia|unfold surrogate; lia|]. apply IH; [lia|]. inversion Hl; subst; try done.
      * rewrite !elem_of_cons, elem_of_nil in *. lia.
    + apply not_true_iff_false in Eb. rewrite between_spec in Eb. rewrite put_rune_utf8 by (unfold surrogate; lia).
      constructor; [lia|unfold surrogate; lia|]. apply IH; [lia|done].
Qed.
