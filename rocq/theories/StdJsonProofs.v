(** Proofs about the scanner: it accepts exactly the texts of RFC 8259. *)
From Verif Require Import Base IdModel JsonModel JsonSpec CodecModel JaegerModel StdJsonModel StdJsonSpec.

(* ---------- white space ---------- *)
Lemma json_space_blank c : json_space c = true <-> (c = 32 \/ c = 9 \/ c = 10 \/ c = 13).
Proof. unfold json_space. rewrite !orb_true_iff, !Z.eqb_eq. tauto. Qed.
Lemma skip_space_app w l : blank w -> skip_space (w ++ l) = skip_space l.
Proof.
  induction 1 as [|c w Hc Hw IH]; [done|]. cbn [app skip_space].
  apply json_space_blank in Hc. rewrite Hc. exact IH.
Qed.
Lemma skip_space_not c l : json_space c = false -> skip_space (c :: l) = c :: l.
Proof. intros H. cbn [skip_space]. by rewrite H. Qed.
Lemma skip_space_split l : exists w, blank w /\ l = w ++ skip_space l.
Proof.
  induction l as [|c l [w [Hw E]]]; [by exists []; split; [constructor|]|]. cbn [skip_space].
  destruct (json_space c) eqn:Ec.
  - exists (c :: w). split; [constructor; [by apply json_space_blank|done]|cbn; by f_equal].
  - exists []. split; [constructor|done].
Qed.

(* ---------- strings ---------- *)
Lemma is_hex_hex c : is_hex c = true <-> hex c.
Proof.
  unfold is_hex, dec_digit, hex, hex_is. split.
  - intros H. destruct (decide (c <= 57)); [exists (c - 48); lia|]. destruct (decide (c <= 70)); [exists (c - 55); lia|exists (c - 87); lia].
  - intros [v H]. lia.
Qed.
Lemma escape_letters y : ((y =? 98) || (y =? 102) || (y =? 110) || (y =? 114) || (y =? 116) || (y =? 92) || (y =? 47) || (y =? 34)) = true
  <-> y ∈ [34; 92; 47; 98; 102; 110; 114; 116].
Proof. rewrite !orb_true_iff, !Z.eqb_eq, !elem_of_cons, elem_of_nil. tauto. Qed.
Lemma scan_string_complete s rest : string_text s -> scan_string (s ++ 34 :: rest) = Some (s, rest).
Proof.
  induction 1 as [|c l H1 H2 H3 H IH|c l Hc H IH|a b c d l Ha Hb Hc Hd H IH]; cbn [app scan_string].
  - reflexivity.
  - destruct (Z.eqb_spec c 34); [done|]. destruct (Z.eqb_spec c 92); [done|].
    destruct (Z.ltb_spec c 32); [lia|]. by rewrite IH.
  - change (92 =? 34) with false. change (92 =? 92) with true. cbn iota.
    destruct (Z.eqb_spec c 117) as [->|Hn]; [rewrite !elem_of_cons, elem_of_nil in Hc; lia|].
    apply escape_letters in Hc. rewrite Hc, IH. reflexivity.
  - change (92 =? 34) with false. change (92 =? 92) with true. change (117 =? 117) with true. cbn iota.
    apply is_hex_hex in Ha, Hb, Hc, Hd. rewrite Ha, Hb, Hc, Hd, IH. reflexivity.
Qed.
Lemma scan_string_sound n : forall l s rest, (length l <= n)%nat -> scan_string l = Some (s, rest) -> string_text s /\ l = s ++ 34 :: rest.
Proof.
  induction n as [|n IH]; intros l s rest Hl E; destruct l as [|x r]; try done; cbn [length] in Hl; [lia|].
  cbn [scan_string] in E.
  destruct (Z.eqb_spec x 34) as [->|N34]; [injection E as <- <-; split; [constructor|done]|].
  destruct (Z.eqb_spec x 92) as [->|N92].
  - destruct r as [|y r1]; [done|]. cbn [length] in Hl. destruct (Z.eqb_spec y 117) as [->|N117].
    + destruct r1 as [|a [|b [|c [|d r2]]]]; try done. cbn [length] in Hl.
      destruct (is_hex a && is_hex b && is_hex c && is_hex d) eqn:Eh; [|done].
      destruct (scan_string r2) as [[s' rest']|] eqn:Es; [|done]. injection E as <- <-.
      apply IH in Es as [Hs ->]; [|lia]. rewrite !andb_true_iff, !is_hex_hex in Eh.
      destruct Eh as [[[Ha Hb] Hc] Hd]. split; [by constructor|done].
    + destruct (_ || (y =? 34)) eqn:Ey; [|done]. destruct (scan_string r1) as [[s' rest']|] eqn:Es; [|done]. injection E as <- <-.
      apply IH in Es as [Hs ->]; [|lia]. apply escape_letters in Ey. split; [by constructor|done].
  - destruct (Z.ltb_spec x 32); [done|]. destruct (scan_string r) as [[s' rest']|] eqn:Es; [|done]. injection E as <- <-.
    apply IH in Es as [Hs ->]; [|lia]. split; [by constructor|done].
Qed.

(* ---------- numbers ---------- *)
Lemma dec_digit_spec c : dec_digit c = true <-> 48 <= c <= 57.
Proof. unfold dec_digit. lia. Qed.
Lemma scan_digits_sound l ds rest : scan_digits l = (ds, rest) -> l = ds ++ rest /\ Forall (fun c => 48 <= c <= 57) ds.
Proof.
  revert ds rest; induction l as [|c l IH]; intros ds rest E; cbn [scan_digits] in E; [injection E as <- <-; split; [done|constructor]|].
  destruct (dec_digit c) eqn:Ec; [|injection E as <- <-; split; [done|constructor]].
  destruct (scan_digits l) as [ds' rest'] eqn:Es. injection E as <- <-.
  destruct (IH _ _ eq_refl) as [-> H]. split; [done|]. constructor; [by apply dec_digit_spec|done].
Qed.
Definition no_digit (l : bytes) : Prop := match l with c :: _ => ~ (48 <= c <= 57) | [] => True end.
Lemma scan_digits_complete ds rest : Forall (fun c => 48 <= c <= 57) ds -> no_digit rest -> scan_digits (ds ++ rest) = (ds, rest).
Proof.
  induction 1 as [|c ds Hc H IH]; intros Hr; cbn [app scan_digits].
  - destruct rest as [|c r]; [done|]. cbn [scan_digits no_digit] in *. destruct (dec_digit c) eqn:E; [apply dec_digit_spec in E; done|done].
  - apply dec_digit_spec in Hc. by rewrite Hc, IH.
Qed.
(** The byte after a number. *)
Definition after_number (l : bytes) : Prop := match l with b :: _ => ~ (48 <= b <= 57) /\ b <> 46 /\ b <> 101 /\ b <> 69 | [] => True end.
Lemma after_number_digit l : after_number l -> no_digit l.
Proof. destruct l; cbn; tauto. Qed.
Lemma scan_exponent_complete acc e rest : exp_text e -> after_number rest -> scan_exponent acc (e ++ rest) = Some (acc ++ e, rest).
Proof.
  intros [->|(c & s & d & -> & Hc & Hs & Hd & Hd')] Hr.
  - rewrite app_nil_r. cbn [app]. destruct rest as [|b r]; [done|]. cbn [scan_exponent after_number] in *.
    destruct (Z.eqb_spec b 101); [lia|]. destruct (Z.eqb_spec b 69); [lia|]. done.
  - cbn [app]. unfold scan_exponent. replace ((c =? 101) || (c =? 69)) with true by lia.
    assert (E : match (s ++ d) ++ rest with
      | s0 :: r' => if (s0 =? 43) || (s0 =? 45) then ([s0], r') else ([], (s ++ d) ++ rest) | [] => ([], []) end = (s, d ++ rest)).
    { destruct Hs as [->|[->| ->]]; [|done|done]. cbn [app]. destruct d as [|x d]; [done|]. cbn [app].
      inversion_clear Hd as [|? ? Hx Hd0]. destruct (Z.eqb_spec x 43); [lia|]. destruct (Z.eqb_spec x 45); [lia|]. done. }
    rewrite E, scan_digits_complete by (first [done|by apply after_number_digit]). by destruct d.
Qed.
Lemma scan_exponent_sound acc l n rest : scan_exponent acc l = Some (n, rest) -> exists e, n = acc ++ e /\ l = e ++ rest /\ exp_text e.
Proof.
  destruct l as [|c r]; cbn [scan_exponent]; intros E.
  { injection E as <- <-. exists []. rewrite app_nil_r. split; [done|]. split; [done|]. by left. }
  destruct ((c =? 101) || (c =? 69)) eqn:Ec.
  - destruct (match r with s :: r' => if (s =? 43) || (s =? 45) then ([s], r') else ([], r) | [] => ([], []) end) as [sg r1] eqn:Es.
    destruct (scan_digits r1) as [ds rest'] eqn:Ed. apply scan_digits_sound in Ed as [-> Hd].
    assert (Hr : r = sg ++ ds ++ rest' /\ (sg = [] \/ sg = [43] \/ sg = [45])).
    { destruct r as [|s r']; [injection Es as <- <-; by split; [|left]|]. destruct (Z.eqb_spec s 43) as [->|]; [injection Es as <- <-; by split; [|right; left]|].
      destruct (Z.eqb_spec s 45) as [->|]; injection Es as <- <-; (split; [done|tauto]). }
    destruct Hr as [-> Hs]. destruct ds as [|d ds]; [done|]. injection E as <- <-.
    exists (c :: sg ++ d :: ds). split; [done|]. split; [cbn [app]; by rewrite <- app_assoc|].
    right. exists c, sg, (d :: ds). split; [done|]. split; [lia|]. split; [done|]. split; [done|done].
  - injection E as <- <-. exists []. rewrite app_nil_r. split; [done|]. split; [done|]. by left.
Qed.
Lemma scan_fraction_complete acc f e rest : frac_text f -> exp_text e -> after_number rest ->
  scan_fraction acc (f ++ e ++ rest) = Some (acc ++ f ++ e, rest).
Proof.
  intros [->|(d & -> & Hd & Hd')] He Hr.
  - cbn [app]. assert (Hh : match e ++ rest with c :: _ => c <> 46 | [] => e = [] /\ rest = [] end).
    { destruct He as [->|(c & s & d & -> & Hc & _)]; cbn [app]; [|lia]. destruct rest; [done|]. cbn in Hr. tauto. }
    pose proof (scan_exponent_complete acc e rest He Hr) as E. unfold scan_fraction. destruct (e ++ rest) as [|c r].
    + destruct Hh as [-> ->]. by rewrite app_nil_r.
    + destruct (Z.eqb_spec c 46); [done|]. exact E.
  - cbn [app]. unfold scan_fraction. change (46 =? 46) with true. cbn iota.
    rewrite scan_digits_complete; [|done|]. 2:{ destruct He as [->|(c & s & d' & -> & Hc & _)]; cbn [app no_digit]; [by apply after_number_digit|lia]. }
    destruct d as [|x d]; [done|]. rewrite scan_exponent_complete by done. f_equal. f_equal. rewrite <- app_assoc. done.
Qed.
Lemma scan_fraction_sound acc l n rest : scan_fraction acc l = Some (n, rest) ->
  exists f e, n = acc ++ f ++ e /\ l = f ++ e ++ rest /\ frac_text f /\ exp_text e.
Proof.
  destruct l as [|c r]; intros E.
  { injection E as <- <-. exists [], []. rewrite app_nil_r. split; [done|]. split; [done|]. split; by left. }
  cbn [scan_fraction] in E. destruct (Z.eqb_spec c 46) as [->|Hc].
  - destruct (scan_digits r) as [ds r'] eqn:Ed. apply scan_digits_sound in Ed as [-> Hd]. destruct ds as [|d ds]; [done|].
    apply scan_exponent_sound in E as (e & -> & -> & He). exists (46 :: d :: ds), e.
    split; [by rewrite <- app_assoc|]. split; [done|]. split; [|done]. right. exists (d :: ds). split; [done|]. by split.
  - apply scan_exponent_sound in E as (e & -> & E & He). exists [], e. split; [done|]. split; [done|]. split; [by left|done].
Qed.
Lemma scan_number_complete l rest : rfc_number l -> after_number rest -> scan_number (l ++ rest) = Some (l, rest).
Proof.
  intros (m & i & f & e & -> & Hm & Hi & Hf & He) Hr. unfold scan_number.
  assert (Hih : exists c i', i = c :: i' /\ 48 <= c <= 57).
  { destruct Hi as [->|[[Hd Hn] _]]; [by exists 48, []|]. destruct i as [|c i']; [done|]. inversion Hd; subst. by exists c, i'. }
  assert (E : match (m ++ i ++ f ++ e) ++ rest with c :: r => if c =? 45 then ([c], r) else ([], (m ++ i ++ f ++ e) ++ rest) | [] => ([], []) end
    = (m, i ++ f ++ e ++ rest)).
  { rewrite <- !app_assoc. destruct Hm as [->| ->]; [|done]. destruct Hih as (c & i' & -> & Hc). cbn [app].
    destruct (Z.eqb_spec c 45); [lia|]. done. }
  rewrite E. clear E. assert (Hfn : no_digit (f ++ e ++ rest)).
  { destruct Hf as [->|(d & -> & _)]; [|cbn; lia]. destruct He as [->|(c & s & d & -> & Hc & _)]; cbn [app no_digit]; [by apply after_number_digit|lia]. }
  destruct Hi as [->|[[Hd Hn] H0]].
  - cbn [app]. change (48 =? 48) with true. cbn iota. rewrite scan_fraction_complete by done. by rewrite <- app_assoc.
  - destruct Hih as (c & i' & Ei & Hc). rewrite Ei. cbn [app]. destruct (Z.eqb_spec c 48) as [->|Hc0]; [by rewrite Ei in H0|].
    replace (dec_digit c) with true by (symmetry; by apply dec_digit_spec).
    change (c :: i' ++ f ++ e ++ rest) with ((c :: i') ++ f ++ e ++ rest). rewrite <- Ei.
    rewrite scan_digits_complete by done. rewrite scan_fraction_complete by done. rewrite Ei. by rewrite <- !app_assoc.
Qed.
Lemma scan_number_sound l n rest : scan_number l = Some (n, rest) -> rfc_number n /\ l = n ++ rest.
Proof.
  unfold scan_number. destruct (match l with c :: r => if c =? 45 then ([c], r) else ([], l) | [] => ([], []) end) as [m l1] eqn:Em.
  assert (Hm : l = m ++ l1 /\ opt_minus m).
  { destruct l as [|c r]; [injection Em as <- <-; by split; [|left]|]. destruct (Z.eqb_spec c 45) as [->|]; injection Em as <- <-; (split; [done|]); [by right|by left]. }
  clear Em. destruct Hm as [-> Hm]. destruct l1 as [|c r]; [done|]. destruct (Z.eqb_spec c 48) as [->|Hc].
  - intros E. apply scan_fraction_sound in E as (f & e & -> & -> & Hf & He). split; [|by rewrite <- !app_assoc].
    exists m, [48], f, e. split; [by rewrite <- !app_assoc|]. split; [done|]. split; [by left|done].
  - destruct (dec_digit c) eqn:Ec; [|done]. destruct (scan_digits (c :: r)) as [ds r'] eqn:Ed.
    pose proof Ed as Ed'. apply scan_digits_sound in Ed' as [E1 Hd]. rewrite E1. intros E.
    apply scan_fraction_sound in E as (f & e & -> & -> & Hf & He). split; [|by rewrite <- !app_assoc].
    exists m, ds, f, e. split; [by rewrite <- !app_assoc|]. split; [done|]. split; [|done]. right.
    destruct ds as [|d ds]; [exfalso|].
    + cbn [scan_digits] in Ed. rewrite Ec in Ed. by destruct (scan_digits r).
    + cbn [app] in E1. injection E1 as <- _. split; [by split|]. cbn. congruence.
Qed.

(* ---------- values ---------- *)
Lemma scan_word_complete w rest : scan_word w (w ++ rest) = Some rest.
Proof. induction w as [|a w IH]; [by destruct rest|]. cbn [app scan_word]. by rewrite Z.eqb_refl. Qed.
Lemma scan_word_sound w l rest : scan_word w l = Some rest -> l = w ++ rest.
Proof.
  revert l; induction w as [|a w IH]; intros l E; [destruct l; injection E as <-; reflexivity|]. destruct l as [|b l]; [done|]. cbn [scan_word] in E.
  destruct (Z.eqb_spec a b) as [->|]; [|done]. apply IH in E as ->. done.
Qed.

(** First bytes of values. *)
Definition opens (c : Z) : Prop := json_space c = false /\ c <> 44 /\ c <> 93 /\ c <> 125 /\ c <> 58.
Lemma gram_head t l : gram t l -> exists c r, l = c :: r /\ opens c.
Proof.
  assert (H : forall c, c ∈ [34; 123; 91; 45] \/ 48 <= c <= 57 \/ 97 <= c <= 122 -> opens c).
  { intros c Hc. rewrite !elem_of_cons, elem_of_nil in Hc. unfold opens, json_space. split; [|lia].
    destruct (Z.eqb_spec c 32), (Z.eqb_spec c 9), (Z.eqb_spec c 13), (Z.eqb_spec c 10); try lia; done. }
  destruct 1 as [| | |l Hl|raw _|w _|vs l _|w _|ms l _];
    try (eexists _, _; split; [reflexivity|]; apply H; rewrite ?elem_of_cons; vm_compute; first [tauto|right; right; split; congruence]).
  destruct Hl as (m & i & f & e & -> & Hm & Hi & _). destruct Hm as [->| ->].
  - destruct Hi as [->|[[Hd Hn] _]]; [eexists _, _; split; [reflexivity|]; apply H; lia|]. destruct i as [|c i]; [done|].
    inversion Hd; subst. eexists _, _; split; [reflexivity|]. apply H; lia.
  - eexists _, _; split; [reflexivity|]. apply H. left. rewrite !elem_of_cons. tauto.
Qed.
Lemma skip_to w c r l : blank w -> opens c -> skip_space (w ++ (c :: r) ++ l) = (c :: r) ++ l.
Proof. intros Hw [Hc _]. rewrite skip_space_app by done. cbn [app]. by apply skip_space_not. Qed.
Lemma skip_to_gram w t l r : blank w -> gram t l -> skip_space (w ++ l ++ r) = l ++ r.
Proof. intros Hw H. destruct (gram_head _ _ H) as (c & r' & -> & Hc). by apply skip_to. Qed.
Lemma skip_to_byte w c r : blank w -> json_space c = false -> skip_space (w ++ c :: r) = c :: r.
Proof. intros Hw Hc. rewrite skip_space_app by done. by apply skip_space_not. Qed.

Lemma max_nonneg l : 0 <= foldr Z.max 0 l.
Proof. induction l as [|x l IH]; cbn [foldr]; lia. Qed.

Lemma scan_complete :
  (forall t l, gram t l -> forall fuel depth rest, ended t rest -> nesting t = 0 \/ depth + nesting t <= max_nesting -> (length l <= fuel)%nat ->
     scan_value fuel depth (l ++ rest) = Scanned t rest) /\
  (forall vs l, gram_elements vs l -> forall fuel depth rest, depth + foldr Z.max 0 (map nesting vs) <= max_nesting -> (length l + 1 <= fuel)%nat ->
     scan_elements fuel depth (skip_space (l ++ 93 :: rest)) = Scanned vs rest) /\
  (forall ms l, gram_members ms l -> forall fuel depth rest, depth + foldr Z.max 0 (map (fun m => nesting m.2) ms) <= max_nesting -> (length l + 1 <= fuel)%nat ->
     scan_members fuel depth (skip_space (l ++ 125 :: rest)) = Scanned ms rest).
Proof.
  apply gram_mutind.
  - intros fuel depth rest _ _ Hf. destruct fuel; [cbn in Hf; lia|]. reflexivity.
  - intros fuel depth rest _ _ Hf. destruct fuel; [cbn in Hf; lia|]. reflexivity.
  - intros fuel depth rest _ _ Hf. destruct fuel; [cbn in Hf; lia|]. reflexivity.
  - intros l Hl fuel depth rest He _ Hf. destruct (gram_head _ _ (g_num _ Hl)) as (c & r & E & _).
    pose proof (scan_number_complete l rest Hl He) as En.
    assert (Hc : c = 45 \/ 48 <= c <= 57).
    { destruct Hl as (m & i & f & e & -> & Hm & Hi & _). destruct Hm as [->| ->]; [|cbn in E; left; congruence]. right.
      destruct Hi as [->|[[Hd Hn] _]]; [cbn in E; injection E as <- _; lia|]. destruct i as [|c' i]; [done|]. inversion Hd; subst. cbn in E. injection E as <- _. lia. }
    subst l. destruct fuel; [cbn in Hf; lia|]. cbn [app scan_value] in *.
    repeat match goal with |- context [c =? ?x] => destruct (Z.eqb_spec c x); [lia|] end. rewrite En. reflexivity.
  - intros raw Hr fuel depth rest _ _ Hf. destruct fuel; [cbn in Hf; lia|]. cbn [app scan_value].
    change (34 =? 123) with false. change (34 =? 91) with false. change (34 =? 34) with true. cbn iota.
    rewrite <- app_assoc. cbn [app]. rewrite scan_string_complete by done. reflexivity.
  - intros w Hw fuel depth rest _ Hn Hf. destruct fuel; [cbn in Hf; lia|]. cbn [app scan_value]. cbn in Hn.
    change (91 =? 123) with false. change (91 =? 91) with true. cbn iota.
    destruct (Z.ltb_spec max_nesting (depth + 1)); [lia|]. rewrite <- app_assoc. cbn [app]. rewrite skip_to_byte by done. reflexivity.
  - intros vs l Hl IH fuel depth rest _ Hn Hf. cbn [length] in Hf. rewrite app_length in Hf. cbn [length] in Hf.
    destruct fuel; [lia|]. cbn [app scan_value nesting] in *. pose proof (max_nonneg (map nesting vs)).
    change (91 =? 123) with false. change (91 =? 91) with true. cbn iota.
    destruct (Z.ltb_spec max_nesting (depth + 1)); [lia|]. rewrite <- app_assoc. cbn [app].
    specialize (IH fuel (depth + 1) rest ltac:(lia) ltac:(lia)).
    assert (E : exists c r, skip_space (l ++ 93 :: rest) = c :: r /\ c <> 93).
    { destruct Hl as [v w1 l w2 Hw1 Hg Hw2|v w1 l w2 vs l' Hw1 Hg Hw2 Hl]; rewrite <- ?app_assoc;
        destruct (gram_head _ _ Hg) as (c & r & -> & Hc); rewrite skip_to by done; cbn [app]; eexists _, _; (split; [reflexivity|]); apply Hc. }
    destruct E as (c & r & E & Hc). rewrite E in *. destruct (Z.eqb_spec c 93); [done|]. rewrite IH. reflexivity.
  - intros w Hw fuel depth rest _ Hn Hf. destruct fuel; [cbn in Hf; lia|]. cbn [app scan_value]. cbn in Hn.
    change (123 =? 123) with true. cbn iota.
    destruct (Z.ltb_spec max_nesting (depth + 1)); [lia|]. rewrite <- app_assoc. cbn [app]. rewrite skip_to_byte by done. reflexivity.
  - intros ms l Hl IH fuel depth rest _ Hn Hf. cbn [length] in Hf. rewrite app_length in Hf. cbn [length] in Hf.
    destruct fuel; [lia|]. cbn [app scan_value nesting] in *. pose proof (max_nonneg (map (fun m => nesting m.2) ms)).
    change (123 =? 123) with true. cbn iota.
    destruct (Z.ltb_spec max_nesting (depth + 1)); [lia|]. rewrite <- app_assoc. cbn [app].
    specialize (IH fuel (depth + 1) rest ltac:(lia) ltac:(lia)).
    assert (E : exists r, skip_space (l ++ 125 :: rest) = 34 :: r).
    { destruct Hl; rewrite <- ?app_assoc; cbn [app]; rewrite skip_to_byte by done; by eexists. }
    destruct E as (r & E). rewrite E in *. change (34 =? 125) with false. cbn iota. rewrite IH. reflexivity.
  - intros v w1 l w2 Hw1 Hg IH Hw2 fuel depth rest Hn Hf. rewrite !app_length in Hf. destruct fuel; [lia|]. cbn [map foldr] in Hn.
    rewrite <- !app_assoc. rewrite (skip_to_gram w1 v) by done. cbn [scan_elements].
    rewrite IH; [|by destruct v; try done; destruct w2 as [|x w2]; cbn; [lia|inversion Hw2; subst; lia]|lia|lia].
    cbn [sthen]. rewrite skip_to_byte by done. reflexivity.
  - intros v w1 l w2 vs l' Hw1 Hg IH Hw2 Hl IHl fuel depth rest Hn Hf. rewrite !app_length in Hf. cbn [length] in Hf. destruct fuel; [lia|]. cbn [map foldr] in Hn.
    rewrite <- !app_assoc. rewrite (skip_to_gram w1 v) by done. cbn [scan_elements].
    rewrite IH; [|by destruct v; try done; destruct w2 as [|x w2]; cbn; [lia|inversion Hw2; subst; lia]|lia|lia].
    cbn [sthen app]. rewrite skip_to_byte by done. change (44 =? 44) with true. cbn iota.
    rewrite IHl by lia. reflexivity.
  - intros k w1 w2 w3 v l w4 Hw1 Hk Hw2 Hw3 Hg IH Hw4 fuel depth rest Hn Hf.
    repeat (rewrite ?app_length in Hf; cbn [length] in Hf). destruct fuel; [lia|]. cbn [map foldr snd] in Hn.
    repeat (rewrite <- ?app_assoc; cbn [app]). rewrite skip_to_byte by done. cbn [scan_members].
    change (34 =? 34) with true. cbn iota. rewrite scan_string_complete by done. cbn [of_option sthen].
    rewrite skip_to_byte by done. change (58 =? 58) with true. cbn iota. rewrite (skip_to_gram w3 v) by done.
    rewrite IH; [|by destruct v; try done; destruct w4 as [|x w4]; cbn; [lia|inversion Hw4; subst; lia]|lia|lia].
    cbn [sthen]. rewrite skip_to_byte by done. reflexivity.
  - intros k w1 w2 w3 v l w4 ms l' Hw1 Hk Hw2 Hw3 Hg IH Hw4 Hl IHl fuel depth rest Hn Hf.
    repeat (rewrite ?app_length in Hf; cbn [length] in Hf). destruct fuel; [lia|]. cbn [map foldr snd] in Hn.
    repeat (rewrite <- ?app_assoc; cbn [app]). rewrite skip_to_byte by done. cbn [scan_members].
    change (34 =? 34) with true. cbn iota. rewrite scan_string_complete by done. cbn [of_option sthen].
    rewrite skip_to_byte by done. change (58 =? 58) with true. cbn iota. rewrite (skip_to_gram w3 v) by done.
    rewrite IH; [|by destruct v; try done; destruct w4 as [|x w4]; cbn; [lia|inversion Hw4; subst; lia]|lia|lia].
    cbn [sthen]. rewrite skip_to_byte by done. change (44 =? 44) with true. cbn iota. rewrite IHl by lia. reflexivity.
Qed.

Lemma sthen_scanned {A B} (r : scanned A) (f : A -> bytes -> scanned B) b rest :
  sthen r f = Scanned b rest -> exists a rest', r = Scanned a rest' /\ f a rest' = Scanned b rest.
Proof. destruct r as [a rest'| |]; [|done|done]. intros E. by exists a, rest'. Qed.
Lemma of_option_scanned {A} (r : option (A * bytes)) a rest : of_option r = Scanned a rest -> r = Some (a, rest).
Proof. destruct r as [[a' rest']|]; [|done]. intros E. by injection E as <- <-. Qed.
Lemma space_then c : json_space c = true -> blank [c].
Proof. intros H. constructor; [by apply json_space_blank|constructor]. Qed.
Lemma blank_app w1 w2 : blank w1 -> blank w2 -> blank (w1 ++ w2).
Proof. apply Forall_app_2. Qed.

Lemma scan_sound fuel :
  (forall depth l t rest, scan_value fuel depth l = Scanned t rest ->
     exists l', l = l' ++ rest /\ gram t l' /\ (nesting t = 0 \/ depth + nesting t <= max_nesting)) /\
  (forall depth l vs rest, depth <= max_nesting -> scan_elements fuel depth l = Scanned vs rest ->
     exists l', l = l' ++ 93 :: rest /\ gram_elements vs l' /\ depth + foldr Z.max 0 (map nesting vs) <= max_nesting) /\
  (forall depth l ms rest, depth <= max_nesting -> scan_members fuel depth l = Scanned ms rest ->
     exists l', l = l' ++ 125 :: rest /\ gram_members ms l' /\ depth + foldr Z.max 0 (map (fun m => nesting m.2) ms) <= max_nesting).
Proof.
  induction fuel as [|fuel (IHv & IHe & IHm)]; [done|]. split; [|split].
  - intros depth l t rest E. destruct l as [|c r]; [done|]. cbn [scan_value] in E.
    destruct (Z.eqb_spec c 123) as [->|_].
    { destruct (Z.ltb_spec max_nesting (depth + 1)); [done|]. destruct (skip_space_split r) as (w & Hw & Er).
      destruct (skip_space r) as [|d r'] eqn:Es; [done|]. destruct (Z.eqb_spec d 125) as [->|_].
      - injection E as <- <-. exists (123 :: w ++ [125]). split; [cbn [app]; rewrite Er, <- app_assoc; done|]. split; [by constructor|]. right. cbn; lia.
      - apply sthen_scanned in E as (ms & rest' & E & E'). injection E' as <- <-. apply IHm in E as (l' & E & Hg & Hn); [|lia].
        exists (123 :: (w ++ l') ++ [125]). split; [cbn [app]; rewrite Er, E, <- !app_assoc; done|]. split; [|right; cbn [nesting]; lia].
        apply g_obj. destruct Hg as [k w1 w2 w3 v l w4 Hw1|k w1 w2 w3 v l w4 ms l' Hw1]; rewrite app_assoc; constructor; try done; by apply blank_app. }
    destruct (Z.eqb_spec c 91) as [->|_].
    { destruct (Z.ltb_spec max_nesting (depth + 1)); [done|]. destruct (skip_space_split r) as (w & Hw & Er).
      destruct (skip_space r) as [|d r'] eqn:Es; [done|]. destruct (Z.eqb_spec d 93) as [->|_].
      - injection E as <- <-. exists (91 :: w ++ [93]). split; [cbn [app]; rewrite Er, <- app_assoc; done|]. split; [by constructor|]. right. cbn; lia.
      - apply sthen_scanned in E as (vs & rest' & E & E'). injection E' as <- <-. apply IHe in E as (l' & E & Hg & Hn); [|lia].
        exists (91 :: (w ++ l') ++ [93]). split; [cbn [app]; rewrite Er, E, <- !app_assoc; done|]. split; [|right; cbn [nesting]; lia].
        apply g_arr. destruct Hg as [v w1 l w2 Hw1|v w1 l w2 vs l' Hw1]; rewrite app_assoc; constructor; try done; by apply blank_app. }
    destruct (Z.eqb_spec c 34) as [->|_].
    { apply sthen_scanned in E as (s & rest' & E & E'). injection E' as <- <-. apply of_option_scanned in E.
      eapply scan_string_sound in E as [Hs ->]; [|done]. exists (34 :: s ++ [34]). split; [cbn [app]; by rewrite <- app_assoc|]. split; [by constructor|by left]. }
    destruct (Z.eqb_spec c 116) as [->|_].
    { destruct (scan_word _ _) as [r'|] eqn:Ew; [|done]. injection E as <- <-. apply scan_word_sound in Ew as ->.
      exists (str "true"). split; [done|]. split; [constructor|by left]. }
    destruct (Z.eqb_spec c 102) as [->|_].
    { destruct (scan_word _ _) as [r'|] eqn:Ew; [|done]. injection E as <- <-. apply scan_word_sound in Ew as ->.
      exists (str "false"). split; [done|]. split; [constructor|by left]. }
    destruct (Z.eqb_spec c 110) as [->|_].
    { destruct (scan_word _ _) as [r'|] eqn:Ew; [|done]. injection E as <- <-. apply scan_word_sound in Ew as ->.
      exists (str "null"). split; [done|]. split; [constructor|by left]. }
    apply sthen_scanned in E as (n & rest' & E & E'). injection E' as <- <-. apply of_option_scanned in E.
    apply scan_number_sound in E as [Hn ->]. exists n. split; [done|]. split; [by constructor|by left].
  - intros depth l vs rest Hd E. cbn [scan_elements] in E. apply sthen_scanned in E as (v & r & Ev & E).
    apply IHv in Ev as (lv & -> & Hv & Hn). destruct (skip_space_split r) as (w & Hw & Er).
    destruct (skip_space r) as [|d r'] eqn:Es; [done|]. destruct (Z.eqb_spec d 44) as [->|_].
    + apply sthen_scanned in E as (vs' & rest' & E & E'). injection E' as <- <-. apply IHe in E as (l' & E & Hg & Hn'); [|done].
      destruct (skip_space_split r') as (w' & Hw' & Er'). rewrite E in Er'.
      exists ([] ++ lv ++ w ++ 44 :: w' ++ l'). split; [rewrite Er, Er'; cbn [app]; rewrite <- !app_assoc; cbn [app]; by rewrite <- !app_assoc|].
      split; [|cbn [map foldr]; lia]. constructor; [constructor|done|done|].
      destruct Hg as [v1 w1 l w2 Hw1|v1 w1 l w2 vs l' Hw1]; rewrite app_assoc; constructor; try done; by apply blank_app.
    + destruct (Z.eqb_spec d 93) as [->|_]; [|done]. injection E as <- <-. exists ([] ++ lv ++ w).
      split; [rewrite Er; cbn [app]; by rewrite <- app_assoc|]. split; [constructor; [constructor|done|done]|]. cbn [map foldr]; lia.
  - intros depth l ms rest Hd E. cbn [scan_members] in E. destruct l as [|q r0]; [done|]. destruct (Z.eqb_spec q 34) as [->|_]; [|done].
    apply sthen_scanned in E as (k & r1 & Ek & E). apply of_option_scanned in Ek. eapply scan_string_sound in Ek as [Hk ->]; [|done].
    destruct (skip_space_split r1) as (w2 & Hw2 & Er1). destruct (skip_space r1) as [|d r2] eqn:Es; [done|].
    destruct (Z.eqb_spec d 58) as [->|_]; [|done]. apply sthen_scanned in E as (v & r & Ev & E).
    apply IHv in Ev as (lv & Elv & Hv & Hn). destruct (skip_space_split r2) as (w3 & Hw3 & Er2). rewrite Elv in Er2.
    destruct (skip_space_split r) as (w & Hw & Er). clear Es.
    destruct (skip_space r) as [|d r'] eqn:Es; [done|]. destruct (Z.eqb_spec d 44) as [->|_].
    + apply sthen_scanned in E as (vs' & rest' & E & E'). injection E' as <- <-. apply IHm in E as (l' & E & Hg & Hn'); [|done].
      destruct (skip_space_split r') as (w' & Hw' & Er'). rewrite E in Er'.
      exists ([] ++ 34 :: k ++ 34 :: w2 ++ 58 :: w3 ++ lv ++ w ++ 44 :: w' ++ l').
      split; [rewrite Er1, Er2, Er, Er'; repeat (rewrite <- ?app_assoc; cbn [app]); done|].
      split; [|cbn [map foldr snd]; lia]. constructor; try done; [constructor|].
      destruct Hg as [k1 w11 w12 w13 v1 l w14 Hw11|k1 w11 w12 w13 v1 l w14 ms l' Hw11]; rewrite app_assoc; constructor; try done; by apply blank_app.
    + destruct (Z.eqb_spec d 125) as [->|_]; [|done]. injection E as <- <-. exists ([] ++ 34 :: k ++ 34 :: w2 ++ 58 :: w3 ++ lv ++ w).
      split; [rewrite Er1, Er2, Er; repeat (rewrite <- ?app_assoc; cbn [app]); done|]. split; [constructor; try done; constructor|]. cbn [map foldr snd]; lia.
Qed.

Lemma skip_space_length l : (length (skip_space l) <= length l)%nat.
Proof. induction l as [|c l IH]; [done|]. cbn [skip_space]. destruct (json_space c); cbn [length]; lia. Qed.
Lemma scan_value_shorter fuel depth l t rest : scan_value fuel depth l = Scanned t rest -> (length rest < length l)%nat.
Proof.
  intros E. apply scan_sound in E as (l' & -> & Hg & _). destruct (gram_head _ _ Hg) as (c & r & -> & _). rewrite app_length. cbn. lia.
Qed.
Lemma scan_bound fuel :
  (forall depth l, (2 * length l + 1 <= fuel)%nat -> scan_value fuel depth l <> OutOfBound) /\
  (forall depth l, (2 * length l + 2 <= fuel)%nat -> scan_elements fuel depth l <> OutOfBound) /\
  (forall depth l, (2 * length l + 2 <= fuel)%nat -> scan_members fuel depth l <> OutOfBound).
Proof.
  induction fuel as [|fuel (IHv & IHe & IHm)]; [split; [|split]; intros depth l Hf; lia|]. split; [|split].
  - intros depth l Hf E. destruct l as [|c r]; [done|]. cbn [scan_value length] in *.
    pose proof (skip_space_length r) as Hs.
    destruct (c =? 123).
    { destruct (max_nesting <? depth + 1); [done|]. destruct (skip_space r) as [|d r'] eqn:Es; [done|]. destruct (d =? 125); [done|].
      destruct (scan_members fuel (depth + 1) (d :: r')) eqn:Em; try done. eapply IHm; [|exact Em]. lia. }
    destruct (c =? 91).
    { destruct (max_nesting <? depth + 1); [done|]. destruct (skip_space r) as [|d r'] eqn:Es; [done|]. destruct (d =? 93); [done|].
      destruct (scan_elements fuel (depth + 1) (d :: r')) eqn:Em; try done. eapply IHe; [|exact Em]. lia. }
    destruct (c =? 34); [by destruct (scan_string r) as [[? ?]|]|].
    destruct (c =? 116); [by destruct (scan_word _ _)|]. destruct (c =? 102); [by destruct (scan_word _ _)|].
    destruct (c =? 110); [by destruct (scan_word _ _)|]. by destruct (scan_number _) as [[? ?]|].
  - intros depth l Hf E. cbn [scan_elements] in E. destruct (scan_value fuel depth l) as [v r| |] eqn:Ev; [|done|].
    2:{ eapply IHv; [|exact Ev]. lia. }
    apply scan_value_shorter in Ev. cbn [sthen] in E. pose proof (skip_space_length r) as Hs.
    destruct (skip_space r) as [|d r']; [done|]. cbn [length] in Hs. destruct (d =? 44); [|by destruct (d =? 93)].
    pose proof (skip_space_length r'). destruct (scan_elements fuel depth (skip_space r')) eqn:Em; try done. eapply IHe; [|exact Em]. lia.
  - intros depth l Hf E. cbn [scan_members] in E. destruct l as [|q r0]; [done|]. cbn [length] in Hf. destruct (q =? 34); [|done].
    destruct (scan_string r0) as [[k r1]|] eqn:Ek; [|done]. cbn [of_option sthen] in E.
    eapply scan_string_sound in Ek as [_ ->]; [|done]. rewrite app_length in Hf. cbn [length] in Hf.
    pose proof (skip_space_length r1) as Hs. destruct (skip_space r1) as [|d r2]; [done|]. cbn [length] in Hs. destruct (d =? 58); [|done].
    pose proof (skip_space_length r2) as Hs2.
    destruct (scan_value fuel depth (skip_space r2)) as [v r| |] eqn:Ev; [|done|].
    2:{ eapply IHv; [|exact Ev]. lia. }
    apply scan_value_shorter in Ev. cbn [sthen] in E. pose proof (skip_space_length r) as Hs'.
    destruct (skip_space r) as [|d' r']; [done|]. cbn [length] in Hs'. destruct (d' =? 44); [|by destruct (d' =? 125)].
    pose proof (skip_space_length r'). destruct (scan_members fuel depth (skip_space r')) eqn:Em; try done. eapply IHm; [|exact Em]. lia.
Qed.

(* ---------- the decoder ---------- *)
Lemma json_decode_bound input : json_decode input <> OutOfBound.
Proof.
  unfold json_decode. set (l := concat (r_chunks input)). pose proof (skip_space_length l).
  destruct (scan_value _ _ _) eqn:E; try done. eapply scan_bound in E; [done|]. lia.
Qed.
Lemma json_decode_complete chunks e w t l rest : blank w -> gram t l -> nesting t <= max_nesting -> ended t rest -> concat chunks = w ++ l ++ rest ->
  json_decode (Src chunks e) = Scanned (if complete t rest e then decode_tree t else None) rest.
Proof.
  intros Hw Hg Hn He E. unfold json_decode. cbn [r_chunks r_end]. rewrite E, (skip_to_gram w t) by done.
  destruct scan_complete as [Hc _]. rewrite (Hc t l Hg) by (first [done|right; lia|rewrite !app_length; lia]). reflexivity.
Qed.
Lemma json_decode_sound input r rest : json_decode input = Scanned r rest ->
  exists w t l, blank w /\ gram t l /\ nesting t <= max_nesting /\ concat (r_chunks input) = w ++ l ++ rest /\
  r = if complete t rest (r_end input) then decode_tree t else None.
Proof.
  unfold json_decode. intros E. apply sthen_scanned in E as (t & rest' & E & E'). injection E' as <- <-.
  apply scan_sound in E as (l & E & Hg & Hn). destruct (skip_space_split (concat (r_chunks input))) as (w & Hw & Ew).
  exists w, t, l. split; [done|]. split; [done|]. split; [unfold max_nesting in *; lia|]. split; [by rewrite Ew at 1; rewrite E|done].
Qed.
