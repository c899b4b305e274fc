(** Proofs about strings written by encoding/json. *)
From Verif Require Import Base IdModel IdSpec JsonModel JsonSpec JsonProofs CodecModel DocSpec JaegerModel StdJsonModel StdJsonSpec StdJsonProofs StdTextProofs SpanModel TimeModel TimeSpec SpanJsonModel SpanJsonSpec.

Lemma hex_char_is d : 0 <= d < 16 -> hex_is (hex_char d) d.
Proof.
  intros H. assert (d = 0 \/ d = 1 \/ d = 2 \/ d = 3 \/ d = 4 \/ d = 5 \/ d = 6 \/ d = 7 \/ d = 8 \/ d = 9 \/ d = 10 \/ d = 11 \/ d = 12 \/ d = 13 \/ d = 14 \/ d = 15) as D by lia.
  repeat (destruct D as [->|D]); [..|subst d]; first [left; split; [vm_compute; split; congruence|reflexivity] | right; left; split; [vm_compute; split; congruence|reflexivity]].
Qed.
Lemma nibbles x : 0 <= x < 128 -> Z.shiftr x 4 = x / 16 /\ Z.land x 15 = x mod 16.
Proof. intros H. rewrite Z.shiftr_div_pow2 by lia. change 15 with (Z.ones 4). rewrite Z.land_ones by lia. done. Qed.

(** The escape of a character below 128. *)
Lemma escape_ascii x : 0 <= x < 128 -> html_safe x = false ->
  exists e, escape_char x = e /\ Forall (fun c => 32 <= c < 128 /\ c <> 60 /\ c <> 62 /\ c <> 38) e /\
    (forall l v, json_string l v -> json_string (e ++ l) (x :: v)) /\
    (forall l, string_text l -> string_text (e ++ l)) /\
    (forall l, unquote 0 (e ++ l) = x :: unquote 0 l).
Proof.
  intros Hx Hs. eexists. split; [reflexivity|]. unfold escape_char.
  destruct (Z.eqb_spec x 92) as [->|N1].
  { cbn [orb]. split; [repeat apply Forall_cons_2; try apply Forall_nil_2; lia|]. split; [by constructor|]. split; [|done]. intros l H. apply st_escape; [set_solver|done]. }
  destruct (Z.eqb_spec x 34) as [->|N2].
  { cbn [orb]. split; [repeat apply Forall_cons_2; try apply Forall_nil_2; lia|]. split; [by constructor|]. split; [|done]. intros l H. apply st_escape; [set_solver|done]. }
  cbn [orb]. destruct (Z.eqb_spec x 10) as [->|N3].
  { split; [repeat apply Forall_cons_2; try apply Forall_nil_2; lia|]. split; [by constructor|]. split; [|done]. intros l H. apply st_escape; [set_solver|done]. }
  destruct (Z.eqb_spec x 13) as [->|N4].
  { split; [repeat apply Forall_cons_2; try apply Forall_nil_2; lia|]. split; [by constructor|]. split; [|done]. intros l H. apply st_escape; [set_solver|done]. }
  destruct (Z.eqb_spec x 9) as [->|N5].
  { split; [repeat apply Forall_cons_2; try apply Forall_nil_2; lia|]. split; [by constructor|]. split; [|done]. intros l H. apply st_escape; [set_solver|done]. }
  destruct (nibbles x Hx) as [-> ->].
  assert (H1 : hex_is (hex_char (x / 16)) (x / 16)) by (apply hex_char_is; zlia).
  assert (H2 : hex_is (hex_char (x mod 16)) (x mod 16)) by (apply hex_char_is; zlia).
  assert (H0 : hex_is 48 0) by (left; lia).
  assert (H4 : hex4_is 48 48 (hex_char (x / 16)) (hex_char (x mod 16)) x).
  { exists 0, 0, (x / 16), (x mod 16). split; [done|]. split; [done|]. split; [done|]. split; [done|]. zlia. }
  split; [|split; [|split]].
  - repeat apply Forall_cons_2; try apply Forall_nil_2; first [lia|unfold hex_is in *; lia].
  - intros l v H. cbn [app]. rewrite <- (app_nil_l v). change (x :: [] ++ v) with ([x] ++ v). rewrite <- (utf8_short x) by lia.
    apply js_u; [done|unfold surrogate; lia|done].
  - intros l H. cbn [app]. apply st_unicode; [by exists 0|by exists 0|by eexists|by eexists|done].
  - intros l. cbn [app]. rewrite unquote_unicode. destruct (hex4_value _ _ _ _ _ H4) as [-> _]. cbv zeta.
    destruct (between 55296 57343 x) eqn:E; [apply between_spec in E; lia|]. rewrite put_rune_utf8 by (unfold surrogate; lia). rewrite utf8_short by lia. done.
Qed.

Lemma escape_keep tl l : escape_string (length tl) 0 (tl ++ l) = tl ++ escape_string 0 0 l.
Proof. induction tl as [|c tl IH]; [done|]. cbn [length app escape_string]. by f_equal. Qed.
Lemma escape_drop tl l : escape_string 0 (length tl) (tl ++ l) = escape_string 0 0 l.
Proof. induction tl as [|c tl IH]; [done|]. cbn [length app escape_string]. done. Qed.

Lemma safe_spec x : html_safe x = true -> 32 <= x /\ x <> 34 /\ x <> 92 /\ x <> 60 /\ x <> 62 /\ x <> 38.
Proof.
  unfold html_safe. intros H. apply andb_true_iff in H as [H1 H2]. apply negb_true_iff in H2. rewrite !orb_false_iff in H2. lia.
Qed.
Lemma line_separator_spec x r d : line_separator x r = Some d ->
  exists r', x = 226 /\ r = [128; 160 + d] ++ r' /\ (d = 8 \/ d = 9).
Proof.
  unfold line_separator. destruct r as [|a [|b r]]; [done|done|]. destruct (_ && _) eqn:E; [|done]. intros [= <-].
  rewrite !andb_true_iff, orb_true_iff in E. exists r. split; [lia|]. split; [|lia]. cbn [app]. f_equal; [lia|]. f_equal. lia.
Qed.
Lemma separator_utf8 d : d = 8 \/ d = 9 -> utf8 (8224 + d) = [226; 128; 160 + d].
Proof. intros [->| ->]; reflexivity. Qed.
Lemma separator_hex d : d = 8 \/ d = 9 -> hex4_is 50 48 50 (hex_char d) (8224 + d).
Proof.
  intros H. exists 2, 0, 2, d. split; [left; lia|]. split; [left; lia|]. split; [left; lia|]. split; [apply hex_char_is; lia|lia].
Qed.
Lemma string_text_high tl : Forall (fun c => 128 <= c) tl -> forall l, string_text l -> string_text (tl ++ l).
Proof. induction 1 as [|c tl Hc H IH]; intros l Hl; [done|]. cbn [app]. apply st_plain; [lia|lia|lia|]. by apply IH. Qed.
Lemma json_string_high tl : Forall (fun c => 128 <= c) tl -> forall l v, json_string l v -> json_string (tl ++ l) (tl ++ v).
Proof. induction 1 as [|c tl Hc H IH]; intros l v Hl; [done|]. cbn [app]. apply js_plain; [lia|lia|lia|]. by apply IH. Qed.

(** The text of any string: a JSON string without control characters and without [<], [>], [&], that is read as the repaired string. *)
Definition plain_html (c : Z) : Prop := 32 <= c /\ c <> 60 /\ c <> 62 /\ c <> 38.
Lemma escape_any n : forall s, (length s <= n)%nat -> Forall byte_ok s ->
  string_text (escape_string 0 0 s) /\ repaired s (unquote 0 (escape_string 0 0 s)) /\ Forall plain_html (escape_string 0 0 s).
Proof.
  induction n as [|n IH]; intros s Hn Hb; (destruct s as [|x r]; [split; [constructor|]; split; [constructor|apply Forall_nil_2]|]); cbn [length] in Hn; [lia|].
  apply Forall_cons in Hb as [Hx Hb]. unfold byte_ok in Hx. cbn [escape_string]. destruct (Z.ltb_spec x 128) as [Hl|Hl].
  - destruct (IH r) as (I1 & I2 & I3); [lia|done|].
    assert (Hr : forall v, repaired r v -> repaired (x :: r) (x :: v)).
    { intros v Hv. pose proof (rp_char x r v) as Hp. rewrite utf8_short in Hp by lia. apply Hp; [lia|unfold surrogate; lia|done]. }
    destruct (html_safe x) eqn:Es.
    + apply safe_spec in Es. cbn [app]. split; [apply st_plain; [lia|lia|lia|done]|]. split.
      * cbn [unquote]. destruct (Z.eqb_spec x 92); [lia|]. destruct (Z.ltb_spec x 128); [|lia]. by apply Hr.
      * apply Forall_cons_2; [unfold plain_html; lia|done].
    + destruct (escape_ascii x) as (e & -> & E1 & _ & E2 & E3); [lia|done|]. split; [by apply E2|]. split; [rewrite E3; by apply Hr|].
      apply Forall_app_2; [|done]. eapply Forall_impl; [exact E1|]. unfold plain_html. intros; cbn beta in *; lia.
  - destruct (rune_tail x r) as [k|] eqn:Et.
    + apply rune_tail_sound in Et as Ht. destruct Ht as (_ & tl & r' & -> & Hk & Htl & cp & Hcp & Hs & Eu). rewrite app_length in Hn.
      apply Forall_app in Hb as [_ Hb]. destruct (IH r') as (I1 & I2 & I3); [lia|done|].
      destruct (line_separator x (tl ++ r')) as [d|] eqn:El.
      * apply line_separator_spec in El as (r2 & -> & Er & Hd).
        assert (cp = 8224 + d /\ tl = [128; 160 + d] /\ r2 = r') as (-> & -> & ->).
        { assert (k = 2%nat). { rewrite Er in Et. destruct Hd as [->| ->]; vm_compute in Et; congruence. }
          destruct tl as [|a [|b [|]]]; cbn in Hk; try lia. cbn in Er. injection Er as -> -> ->. split; [|done].
          unfold utf8 in Eu. destruct (cp <? 128) eqn:?; [done|]. destruct (cp <? 2048) eqn:?; [done|]. destruct (cp <? 65536) eqn:?; [|done].
          injection Eu as E1 E2 E3. zlia. }
        rewrite <- Hk, escape_drop. cbn [app].
        split; [apply st_unicode; [exists 2; left; lia|exists 0; left; lia|exists 2; left; lia|exists d; apply hex_char_is; lia|done]|]. split.
        -- rewrite unquote_unicode. destruct (hex4_value _ _ _ _ _ (separator_hex d Hd)) as [-> _]. cbv zeta.
           destruct (between 55296 57343 (8224 + d)) eqn:E; [apply between_spec in E; lia|]. rewrite put_rune_utf8 by (unfold surrogate; lia).
           change (226 :: 128 :: 160 + d :: r') with ([226; 128; 160 + d] ++ r'). rewrite <- separator_utf8 by done. apply rp_char; [lia|unfold surrogate; lia|done].
        -- repeat apply Forall_cons_2; try done; unfold plain_html; destruct Hd as [->| ->]; vm_compute; repeat split; congruence.
      * rewrite <- Hk, escape_keep. change (x :: tl ++ r') with ((x :: tl) ++ r').
        assert (Hh : Forall (fun c => 128 <= c) (x :: tl)) by (apply Forall_cons_2; [lia|done]).
        split; [change (x :: tl ++ escape_string 0 0 r') with ((x :: tl) ++ escape_string 0 0 r'); by apply string_text_high|]. split.
        -- rewrite <- Eu at 1. cbn [unquote]. destruct (Z.eqb_spec x 92); [lia|]. destruct (Z.ltb_spec x 128); [lia|].
           destruct (utf8_long cp (escape_string 0 0 r')) as (y & tl' & Eu' & _ & _ & Et'); [|done|].
           { split; [|lia]. destruct (Z.lt_ge_cases cp 128); [|done]. rewrite utf8_short in Eu by done. injection Eu as -> _. lia. }
           rewrite Eu in Eu'. injection Eu' as <- <-. rewrite Et', unquote_keep. change (x :: tl ++ unquote 0 (escape_string 0 0 r')) with ((x :: tl) ++ unquote 0 (escape_string 0 0 r')).
           rewrite <- Eu. by apply rp_char.
        -- apply Forall_cons_2; [unfold plain_html; lia|]. apply Forall_app_2; [|done]. eapply Forall_impl; [exact Htl|]. unfold plain_html. intros; cbn beta in *; lia.
    + destruct (IH r) as (I1 & I2 & I3); [lia|done|]. cbn [app].
      split; [apply st_unicode; [exists 15; right; left; lia|exists 15; right; left; lia|exists 15; right; left; lia|exists 13; right; left; lia|done]|]. split.
      * rewrite unquote_unicode. change (hex4 102 102 102 100) with 65533. cbv zeta. change (between 55296 57343 65533) with false. cbn [andb].
        rewrite put_rune_utf8 by (unfold surrogate; lia). apply rp_byte; [|done]. intros (cp & l' & E & Hcp & Hs).
        destruct (Z.lt_ge_cases cp 128). { rewrite utf8_short in E by done. injection E as -> _. lia. }
        destruct (utf8_long cp l') as (y & tl & Eu & _ & _ & Et'); [lia|done|]. rewrite Eu in E. cbn [app] in E. injection E as -> ->. congruence.
      * repeat apply Forall_cons_2; try done; unfold plain_html; lia.
Qed.

(** The text of a string in UTF-8 means that string. *)
Lemma escape_utf8 s : utf8_text s -> json_string (escape_string 0 0 s) s /\ utf8_text (escape_string 0 0 s).
Proof.
  induction 1 as [|cp l Hcp Hs Hl [I1 I2]]; [split; constructor|]. destruct (Z.lt_ge_cases cp 128) as [Hc|Hc].
  - rewrite utf8_short by done. cbn [app escape_string]. destruct (Z.ltb_spec cp 128); [|lia]. destruct (html_safe cp) eqn:Es.
    + apply safe_spec in Es. cbn [app]. split; [apply js_plain; [lia|lia|lia|done]|]. apply utf8_text_ascii; [lia|done].
    + destruct (escape_ascii cp) as (e & -> & E1 & E2 & _); [lia|done|]. split; [by apply E2|].
      clear -E1 I2. induction E1 as [|c e Hc H IH]; [done|]. cbn [app]. apply utf8_text_ascii; [lia|done].
  - destruct (utf8_long cp l) as (x & tl & Eu & Hx & Htl & Et); [lia|done|]. rewrite Eu. cbn [app escape_string].
    destruct (Z.ltb_spec x 128); [lia|]. rewrite Et. destruct (line_separator x (tl ++ l)) as [d|] eqn:El.
    + apply line_separator_spec in El as (r2 & -> & Er & Hd).
      assert (cp = 8224 + d /\ tl = [128; 160 + d] /\ r2 = l) as (-> & -> & ->).
      { assert (Some (length tl) = Some 2%nat) as [= H2] by (rewrite <- Et, Er; destruct Hd as [->| ->]; reflexivity).
        destruct tl as [|a [|b [|]]]; cbn in *; try lia. injection Er as -> -> ->. split; [|done].
        unfold utf8 in Eu. destruct (cp <? 128) eqn:?; [done|]. destruct (cp <? 2048) eqn:?; [done|]. destruct (cp <? 65536) eqn:?; [|done].
        injection Eu as E1 E2 E3. zlia. }
      rewrite escape_drop. cbn [app]. split.
      * change (226 :: 128 :: 160 + d :: l) with ([226; 128; 160 + d] ++ l). rewrite <- separator_utf8 by done. apply js_u; [by apply separator_hex|unfold surrogate; lia|done].
      * do 5 (apply utf8_text_ascii; [lia|]). pose proof (hex_char_is d) as Hh. unfold hex_is in Hh. apply utf8_text_ascii; [lia|done].
    + rewrite escape_keep. change (x :: tl ++ l) with ((x :: tl) ++ l). change (x :: tl ++ escape_string 0 0 l) with ((x :: tl) ++ escape_string 0 0 l).
      split; [apply json_string_high; [by apply Forall_cons_2|done]|]. rewrite <- Eu. by constructor.
Qed.

(** Strings in UTF-8 are not changed. *)
Lemma utf8_text_char cp l : 0 <= cp <= 1114111 -> ~ surrogate cp -> utf8_text (utf8 cp ++ l) -> utf8_text l.
Proof.
  intros Hcp Hs H. destruct (Z.lt_ge_cases cp 128). { rewrite utf8_short in H by done. apply utf8_text_byte in H; [done|lia]. }
  destruct (utf8_long cp l) as (x & tl & Eu & Hx & Htl & Et); [lia|done|]. rewrite Eu in H. inversion H as [|cp' l' Hc' Hs' Hl' E].
  destruct (Z.lt_ge_cases cp' 128). { rewrite utf8_short in E by done. cbn in E. injection E as -> _. lia. }
  destruct (utf8_long cp' l') as (x' & tl' & Eu' & Hx' & Htl' & Et'); [lia|done|]. rewrite Eu' in E. cbn [app] in E. injection E as -> E. rewrite E in Et'.
  rewrite Et in Et'. injection Et' as Et'. apply app_inj_1 in E as [_ ->]; [done|]. lia.
Qed.
Lemma repaired_utf8 s v : repaired s v -> utf8_text s -> v = s.
Proof.
  induction 1 as [|cp l v Hc Hs H IH|x l v Hn H IH]; intros Hu; [done| |].
  - f_equal. apply IH. by apply utf8_text_char in Hu.
  - exfalso. apply Hn. inversion Hu as [|cp l' Hc Hs Hl E]. by exists cp, l'.
Qed.
