(** Timestamps as JSON. *)
From Verif Require Import Base SpanModel JsonSpec DocSpec TimeModel TimeSpec.

(* ---------- the calendar ---------- *)

Definition E : Z := 106751991073094.
(** Days before the year number [y] (from [zero_year]). *)
Definition D (y : Z) : Z := 365 * y + y / 4 - y / 100 + y / 400.
Definition year_length (b : bool) : Z := if b then 366 else 365.

Lemma leap_of y : is_leap (y + zero_year) = bool_decide ((y + 1) mod 4 = 0 /\ ((y + 1) mod 100 <> 0 \/ (y + 1) mod 400 = 0)).
Proof.
  unfold is_leap, zero_year. apply Bool.eq_iff_eq_true. rewrite bool_decide_eq_true, andb_true_iff, orb_true_iff, negb_true_iff, Z.eqb_neq, !Z.eqb_eq.
  rewrite !Z.rem_divide, <- !Z.mod_divide by lia. Z.div_mod_to_equations. lia.
Qed.
Lemma is_leap_spec y : is_leap y = bool_decide (leap_year y).
Proof.
  unfold is_leap, leap_year. apply Bool.eq_iff_eq_true. rewrite bool_decide_eq_true, andb_true_iff, orb_true_iff, negb_true_iff, Z.eqb_neq, !Z.eqb_eq.
  rewrite !Z.rem_divide, <- !Z.mod_divide by lia. done.
Qed.
Lemma D_next y : D (y + 1) = D y + year_length (is_leap (y + zero_year)).
Proof.
  rewrite leap_of. unfold D, year_length. case_bool_decide as H; [|apply not_and_l in H as [H|H]; [|apply Decidable.not_or in H as [H1 H2]; apply dec_stable in H1]];
    Z.div_mod_to_equations; lia.
Qed.
Lemma abs_year_spec d : let '(y, yd) := abs_year d in d = D (y - zero_year) + yd /\ 0 <= yd < year_length (is_leap y).
Proof.
  unfold abs_year. rewrite !Z.shiftr_div_pow2 by lia. change (2 ^ 2) with 4. cbn zeta.
  set (n0 := d / 146097). set (d0 := d - 146097 * n0). assert (H0 : 0 <= d0 < 146097) by (unfold d0, n0; Z.div_mod_to_equations; lia).
  assert (Ed : d = 146097 * n0 + d0) by (unfold d0; lia). clearbody n0 d0.
  set (n1 := d0 / 36524 - d0 / 36524 / 4). set (d1 := d0 - 36524 * n1).
  assert (H1 : 0 <= n1 <= 3 /\ 0 <= d1 <= 36524 /\ (d1 = 36524 -> n1 = 3)) by (unfold d1, n1; Z.div_mod_to_equations; lia).
  assert (Ed1 : d0 = 36524 * n1 + d1) by (unfold d1; lia). clearbody n1 d1.
  set (n2 := d1 / 1461). set (d2 := d1 - 1461 * n2).
  assert (H2 : 0 <= n2 <= 24 /\ 0 <= d2 < 1461 /\ d1 = 1461 * n2 + d2) by (unfold d2, n2; Z.div_mod_to_equations; lia). clearbody n2 d2.
  set (n3 := d2 / 365 - d2 / 365 / 4). set (d3 := d2 - 365 * n3).
  assert (H3 : 0 <= n3 <= 3 /\ 0 <= d3 <= 365 /\ (d3 = 365 -> n3 = 3) /\ d2 = 365 * n3 + d3) by (unfold d3, n3; Z.div_mod_to_equations; lia). clearbody n3 d3.
  rewrite leap_of. set (y := 400 * n0 + 100 * n1 + 4 * n2 + n3).
  replace (y + zero_year - zero_year) with y by lia.
  assert (HD : D y = 146097 * n0 + 36524 * n1 + 1461 * n2 + 365 * n3).
  { unfold D. assert (y / 4 = 100 * n0 + 25 * n1 + n2) as -> by (unfold y; Z.div_mod_to_equations; lia).
    assert (y / 100 = 4 * n0 + n1) as -> by (unfold y; Z.div_mod_to_equations; lia).
    assert (y / 400 = n0) as -> by (unfold y; Z.div_mod_to_equations; lia). unfold y. lia. }
  split; [lia|]. split; [lia|]. unfold year_length. case_bool_decide as Hl; [lia|].
  apply not_and_l in Hl as [Hl|Hl].
  - assert (n3 <> 3) by (intros ->; apply Hl; unfold y; Z.div_mod_to_equations; lia). lia.
  - apply Decidable.not_or in Hl as [Ha Hb]. apply dec_stable in Ha.
    assert (n3 = 3 /\ n2 = 24) by (unfold y in *; Z.div_mod_to_equations; lia).
    assert (n1 <> 3) by (intros ->; apply Hb; unfold y; Z.div_mod_to_equations; lia). lia.
Qed.
Lemma D_mono y1 y2 : y1 <= y2 -> D y1 <= D y2.
Proof. unfold D. Z.div_mod_to_equations. lia. Qed.
Lemma abs_year_unique d y yd : d = D (y - zero_year) + yd -> 0 <= yd < year_length (is_leap y) -> abs_year d = (y, yd).
Proof.
  intros H1 H2. pose proof (abs_year_spec d) as HS. destruct (abs_year d) as [y' yd']. destruct HS as [H3 H4].
  pose proof (D_next (y - zero_year)) as N1. pose proof (D_next (y' - zero_year)) as N2.
  replace (y - zero_year + zero_year) with y in N1 by lia. replace (y' - zero_year + zero_year) with y' in N2 by lia.
  assert (y = y').
  { destruct (Z.lt_trichotomy y y') as [Hl|[Hl|Hl]]; [|done|].
    - pose proof (D_mono (y - zero_year + 1) (y' - zero_year) ltac:(lia)). lia.
    - pose proof (D_mono (y' - zero_year + 1) (y - zero_year) ltac:(lia)). lia. }
  subst y'. f_equal; lia.
Qed.

(** Months, by checking all days of a year. *)
Definition mlen (b : bool) (m : Z) : Z :=
  if decide (m = 2) then (if b then 29 else 28) else if decide (m = 4 \/ m = 6 \/ m = 9 \/ m = 11) then 30 else 31.
Definition month_ok (b : bool) (yd : Z) : bool :=
  let '(m, d) := abs_month b yd in
  (1 <=? m) && (m <=? 12) && (1 <=? d) && (d <=? mlen b m) &&
  (days_before (m - 1) + (if b && (3 <=? m) then 1 else 0) + (d - 1) =? yd) &&
  bool_decide (abs_month b (yd + 1) = (if decide (d < mlen b m) then (m, d + 1) else (m + 1, 1)) \/ yd + 1 = year_length b) &&
  (bool_decide (m = 12 /\ d = 31) || negb (yd + 1 =? year_length b)).
Lemma months : forallb (fun i => month_ok true (Z.of_nat i)) (seq 0 (Z.to_nat 366)) && forallb (fun i => month_ok false (Z.of_nat i)) (seq 0 (Z.to_nat 365)) = true.
Proof. by vm_compute. Qed.
Lemma month_fact b yd : 0 <= yd < year_length b -> month_ok b yd = true.
Proof.
  intros H. pose proof months as M. apply andb_prop in M as [M1 M2]. rewrite forallb_forall in M1, M2.
  assert (Hi : yd = Z.of_nat (Z.to_nat yd)) by lia. rewrite Hi. destruct b; [apply M1|apply M2]; apply in_seq; unfold year_length in H; lia.
Qed.
Lemma mlen_length y m : mlen (is_leap y) m = month_length y m.
Proof. unfold mlen, month_length. rewrite is_leap_spec. by destruct (decide (m = 2)); [case_bool_decide; destruct (decide (leap_year y))|]. Qed.

Lemma abs_date_valid d : valid_date (abs_date d).
Proof.
  unfold abs_date. pose proof (abs_year_spec d) as HS. destruct (abs_year d) as [y yd]. destruct HS as [_ H]. pose proof (month_fact _ _ H) as M.
  unfold month_ok in M. destruct (abs_month (is_leap y) yd) as [m dd]. rewrite mlen_length in M. repeat (apply andb_prop in M as [M ?]). unfold valid_date. lia.
Qed.
Lemma abs_date_next d : abs_date (d + 1) = next_day (abs_date d).
Proof.
  unfold abs_date. pose proof (abs_year_spec d) as HS. destruct (abs_year d) as [y yd]. destruct HS as [H1 H]. pose proof (month_fact _ _ H) as M.
  unfold month_ok in M. destruct (abs_month (is_leap y) yd) as [m dd] eqn:Em. repeat (apply andb_prop in M as [M ?]). unfold next_day. rewrite <- mlen_length.
  destruct (Z.eq_dec (yd + 1) (year_length (is_leap y))) as [El|El].
  - rewrite (abs_year_unique (d + 1) (y + 1) 0).
    + assert (m = 12 /\ dd = 31) as [-> ->] by (destruct (bool_decide (m = 12 /\ dd = 31)) eqn:Eb; [by apply bool_decide_eq_true in Eb|cbn in *; lia]).
      change (mlen (is_leap y) 12) with 31. cbn. by destruct (is_leap (y + 1)).
    + replace (y + 1 - zero_year) with (y - zero_year + 1) by lia. rewrite D_next. replace (y - zero_year + zero_year) with y by lia. lia.
    + unfold year_length. destruct (is_leap (y + 1)); lia.
  - rewrite (abs_year_unique (d + 1) y (yd + 1)); [|lia|lia].
    match goal with H : bool_decide _ = true |- _ => apply bool_decide_eq_true in H as [Ha|Ha]; [|done] end. rewrite Ha.
    destruct (decide (dd < mlen (is_leap y) m)) as [Hd|Hd]; [done|]. destruct (decide (m < 12)) as [Hm|Hm]; [done|].
    exfalso. assert (m = 12) by lia. subst m. assert (E12 : mlen (is_leap y) 12 = 31) by done. rewrite E12 in *.
    assert (dd = 31) by lia. subst dd.
    match goal with H : (days_before (12 - 1) + _ + (31 - 1) =? yd) = true |- _ => apply Z.eqb_eq in H as Hy end.
    change (days_before (12 - 1)) with 334 in Hy. change (3 <=? 12) with true in Hy. unfold year_length in *. destruct (is_leap y); cbn [andb] in Hy; lia.
Qed.
Lemma next_day_inj d1 d2 : valid_date d1 -> valid_date d2 -> next_day d1 = next_day d2 -> d1 = d2.
Proof.
  destruct d1 as [[y1 m1] d1], d2 as [[y2 m2] d2]. unfold valid_date, next_day. intros V1 V2.
  destruct (decide (d1 < _)), (decide (d2 < _)); repeat destruct (decide (_ < 12)); intros EE;
    assert (m1 = m2 /\ y1 = y2 /\ d1 = d2) as (-> & -> & ->); try done.
  all: apply pair_equal_spec in EE as [EE ?]; apply pair_equal_spec in EE as [? ?]; subst; repeat split; try lia.
  all: try (assert (m1 = m2) by lia; subst; lia). all: assert (y1 = y2) by lia; assert (m1 = 12) by lia; assert (m2 = 12) by lia; subst; lia.
Qed.
Lemma calendar_abs n d : calendar n d <-> d = abs_date (n + E).
Proof.
  split.
  - induction 1 as [|n d _ IH|n d V _ IH].
    + by vm_compute.
    + replace (n + 1 + E) with (n + E + 1) by lia. by rewrite abs_date_next, IH.
    + replace (n + 1 + E) with (n + E + 1) in IH by lia. rewrite abs_date_next in IH. by apply next_day_inj; [done|apply abs_date_valid|].
  - intros ->. assert (E0 : abs_date (0 + E) = (1970, 1, 1)) by by vm_compute.
    destruct (Z.le_ge_cases 0 n) as [Hn|Hn].
    + revert n Hn. apply natlike_ind; [rewrite E0; constructor|]. intros n _ IH. replace (Z.succ n + E) with (n + E + 1) by lia. rewrite abs_date_next. change (Z.succ n) with (n + 1). by constructor.
    + assert (H : forall k, 0 <= k -> calendar (- k) (abs_date (- k + E))).
      { apply natlike_ind; [rewrite Z.opp_0, E0; constructor|]. intros k _ IH. apply cal_prev; [apply abs_date_valid|].
        replace (- Z.succ k + 1) with (- k) by lia. replace (next_day (abs_date (- Z.succ k + E))) with (abs_date (- k + E)); [done|].
        rewrite <- abs_date_next. f_equal. lia. }
      replace n with (- (- n)) by lia. apply H. lia.
Qed.
Lemma days_since_zero_D y : 0 <= y - zero_year < 2^64 -> days_since_zero y = D (y - zero_year).
Proof.
  intros H. unfold days_since_zero, u64. rewrite Z.mod_small by done. unfold D. set (x := y - zero_year). clearbody x. clear. cbn zeta. Z.div_mod_to_equations. lia.
Qed.
Lemma abs_date_inverse d y m dd : abs_date d = (y, m, dd) -> 0 <= y - zero_year < 2^64 ->
  (if is_leap y && (3 <=? m) then days_since_zero y + days_before (m - 1) + 1 else days_since_zero y + days_before (m - 1)) + (dd - 1) = d.
Proof.
  unfold abs_date. pose proof (abs_year_spec d) as HS. destruct (abs_year d) as [y' yd]. destruct HS as [H1 H]. pose proof (month_fact _ _ H) as M.
  unfold month_ok in M. destruct (abs_month (is_leap y') yd) as [m' dd']. repeat (apply andb_prop in M as [M ?]). intros [= -> -> ->] Hy.
  rewrite days_since_zero_D by done. match goal with H : (_ =? yd) = true |- _ => apply Z.eqb_eq in H as Hm end. destruct (is_leap y && (3 <=? m)); lia.
Qed.

(* ---------- decimal numbers ---------- *)

Lemma dec_value_snoc l : forall acc c, dec_value acc (l ++ [c]) = dec_value acc l * 10 + (c - 48).
Proof. induction l as [|x l IH]; intros acc c; [done|]. cbn [dec_value app]. by rewrite IH. Qed.
Lemma pad_int_decimals w : forall x, 0 <= x < 10 ^ Z.of_nat w -> decimals w x (pad_int w x).
Proof.
  induction w as [|w IH]; intros x H; cbn [pad_int].
  - change (10 ^ Z.of_nat 0) with 1 in H. repeat split; [constructor|cbn; lia].
  - rewrite Nat2Z.inj_succ, Z.pow_succ_r in H by lia. destruct (IH (x / 10)) as (L & F & V); [Z.div_mod_to_equations; lia|].
    split; [rewrite app_length; cbn; lia|]. split; [apply Forall_app; split; [done|apply Forall_singleton; Z.div_mod_to_equations; lia]|].
    rewrite dec_value_snoc, V. Z.div_mod_to_equations. lia.
Qed.
Lemma dec_value_zeros l k : forall acc, dec_value acc (l ++ replicate k 48) = dec_value acc l * 10 ^ Z.of_nat k.
Proof.
  induction k as [|k IH]; intros acc; [rewrite app_nil_r; change (10 ^ Z.of_nat 0) with 1; lia|].
  rewrite replicate_S_end, app_assoc, dec_value_snoc, IH, Nat2Z.inj_succ, Z.pow_succ_r by lia. lia.
Qed.
Lemma dec_value_bound l : Forall (fun c => 48 <= c <= 57) l -> 0 <= dec_value 0 l < 10 ^ Z.of_nat (length l).
Proof.
  induction l as [|c l IH] using rev_ind; intros F; [by split|]. apply Forall_app in F as [F Fc]. inversion_clear Fc.
  specialize (IH F). rewrite dec_value_snoc, app_length. cbn [length]. replace (Z.of_nat (length l + 1)) with (Z.succ (Z.of_nat (length l))) by lia. rewrite Z.pow_succ_r by lia. lia.
Qed.
Lemma drop_zeros_spec l : exists k, l = drop_zeros l ++ replicate k 48.
Proof.
  induction l as [|c l [k IH]]; [by exists 0%nat|]. cbn [drop_zeros]. destruct (drop_zeros l) as [|x r] eqn:Ed.
  - destruct (Z.eqb_spec c 48) as [->|Hc]; [exists (S k); by rewrite IH at 1|]. exists k. by rewrite IH at 1.
  - exists k. by rewrite IH at 1.
Qed.
Lemma format_nano_spec ns : 0 <= ns < 1000000000 -> nanos_text ns (format_nano ns).
Proof.
  intros H. destruct (pad_int_decimals 9 ns H) as (L & F & V). unfold format_nano. destruct (drop_zeros_spec (pad_int 9 ns)) as [k Hk].
  assert (Hv : ns = dec_value 0 (drop_zeros (pad_int 9 ns)) * 10 ^ Z.of_nat k) by (rewrite <- dec_value_zeros; congruence).
  assert (Hl : (length (drop_zeros (pad_int 9 ns)) + k = 9)%nat) by (rewrite Hk, app_length, replicate_length in L; done).
  rewrite Hk in F. apply Forall_app in F as [F _]. destruct (drop_zeros (pad_int 9 ns)) as [|c r] eqn:Ed; [left; split; [done|cbn in Hv; lia]|].
  right. exists (c :: r). split; [done|]. split; [by split|]. split; [lia|]. replace (9 - Z.of_nat (length (c :: r))) with (Z.of_nat k) by lia. done.
Qed.

(** Reading them. *)
Lemma digit_val_ok c : 48 <= c <= 57 -> digit_val c = Some (c - 48).
Proof. intros H. unfold digit_val. rewrite (proj2 (Z.leb_le _ _)), (proj2 (Z.leb_le _ _)) by lia. done. Qed.
Lemma get_num_decimals fixed x l r : decimals 2 x l -> get_num fixed (l ++ r) = Some (x, r).
Proof.
  intros (L & F & V). destruct l as [|a [|b [|]]]; try done. inversion_clear F as [|? ? Ha Fb]. inversion_clear Fb as [|? ? Hb _].
  cbn [app get_num]. rewrite (digit_val_ok a), (digit_val_ok b) by done. cbn [dec_value] in V. f_equal. f_equal. lia.
Qed.
Lemma parse_year_decimals x l r : decimals 4 x l -> parse_year (l ++ r) = Some (x, r).
Proof.
  intros (L & F & V). destruct l as [|a [|b [|c [|d [|]]]]]; try done.
  inversion_clear F as [|? ? Ha F1]. inversion_clear F1 as [|? ? Hb F2]. inversion_clear F2 as [|? ? Hc F3]. inversion_clear F3 as [|? ? Hd _].
  cbn [app parse_year]. rewrite (digit_val_ok a), (digit_val_ok b), (digit_val_ok c), (digit_val_ok d) by done. cbn [dec_value] in V. f_equal. f_equal. lia.
Qed.
Lemma atoi2_decimals x a b : decimals 2 x [a; b] -> atoi2 a b = Some x.
Proof.
  intros (_ & F & V). inversion_clear F as [|? ? Ha Fb]. inversion_clear Fb as [|? ? Hb _]. unfold atoi2.
  destruct (Z.eqb_spec a 45); [lia|]. destruct (Z.eqb_spec a 43); [lia|]. rewrite (digit_val_ok a), (digit_val_ok b) by done. cbn [dec_value] in V. f_equal. lia.
Qed.
Lemma parse_zone_text off l r : offset_text off l -> parse_zone (l ++ r) = Some (off, r).
Proof.
  intros [[-> ->]|(sign & h & m & hh & mm & -> & Hh & Hm & _ & _ & Hs)]; [done|].
  pose proof Hh as (Lh & _ & _). pose proof Hm as (Lm & _ & _). destruct hh as [|h1 [|h2 [|]]]; try done. destruct mm as [|m1 [|m2 [|]]]; try done.
  cbn [app parse_zone]. rewrite (atoi2_decimals h), (atoi2_decimals m) by done.
  destruct Hs as [[-> ->]|[-> ->]]; done.
Qed.
Lemma digit_run_all ds rest : Forall (fun c => 48 <= c <= 57) ds -> match rest with c :: _ => digit_val c = None | [] => True end -> digit_run (ds ++ rest) = (ds, rest).
Proof.
  intros F H. induction F as [|c ds Hc _ IH]; cbn [app digit_run].
  - destruct rest as [|c rest]; [done|]. cbn [digit_run]. by rewrite H.
  - by rewrite (digit_val_ok c), IH.
Qed.
Lemma digits_value_dec l : forall acc, digits_value acc l = dec_value acc l.
Proof. induction l as [|c l IH]; intros acc; [done|]. cbn [digits_value dec_value]. by rewrite IH. Qed.
Lemma offset_head off l : offset_text off l -> exists c r, l = c :: r /\ digit_val c = None /\ c <> 46.
Proof. intros [[-> _]|(sign & h & m & hh & mm & -> & _ & _ & _ & _ & [[-> _]|[-> _]])]; by eexists _, _. Qed.
Lemma parse_fraction_text f l off tz r : nanos_text f l -> offset_text off tz -> parse_fraction (l ++ tz ++ r) = Some (f, tz ++ r).
Proof.
  intros Hf Hz. apply offset_head in Hz as (c & z & -> & Hc & H46). destruct Hf as [[-> ->]|(ds & -> & [F Hne] & Hl & ->)]; cbn [app parse_fraction].
  - destruct (Z.eqb_spec c 46); [done|]. done.
  - cbn [Z.eqb Pos.eqb]. change (c :: z ++ r) with ((c :: z) ++ r). rewrite (digit_run_all ds) by done. destruct ds as [|x ds]; [done|].
    rewrite digits_value_dec. pose proof (dec_value_bound _ F) as Hb.
    assert (10 ^ Z.of_nat (length (x :: ds)) <= 10 ^ 9) by (apply Z.pow_le_mono_r; lia). change (10 ^ 9) with 1000000000 in *.
    destruct (Z.leb_spec 1000000000 (dec_value 0 (x :: ds))); [lia|]. rewrite Z.max_r by lia. done.
Qed.

(* ---------- instants ---------- *)

Lemma abs_epoch_E : abs_epoch = E * 86400.
Proof. done. Qed.
Lemma year_days y m d n : abs_date (n + E) = (y, m, d) -> 0 <= y <= 9999 -> -1000000 <= n <= 4000000.
Proof.
  unfold abs_date. pose proof (abs_year_spec (n + E)) as HS. destruct (abs_year (n + E)) as [y' yd]. destruct (abs_month _ _) as [m' d']. destruct HS as [H1 H].
  intros [= -> -> ->] Hy. pose proof (D_mono (0 - zero_year) (y - zero_year) ltac:(lia)) as B1. pose proof (D_mono (y - zero_year) (9999 - zero_year) ltac:(lia)) as B2.
  assert (D (0 - zero_year) = E - 719528) as B1' by by vm_compute. assert (D (9999 - zero_year) = E + 2932532) as B2' by by vm_compute.
  unfold year_length in H. destruct (is_leap y); lia.
Qed.
Lemma days_year y m d n : abs_date (n + E) = (y, m, d) -> -200000 <= n <= 200000 -> 1000 <= y <= 3000.
Proof.
  unfold abs_date. pose proof (abs_year_spec (n + E)) as HS. destruct (abs_year (n + E)) as [y' yd]. destruct (abs_month _ _) as [m' d']. destruct HS as [H1 H].
  intros [= -> -> ->] Hn. assert (yd < 366) by (unfold year_length in H; destruct (is_leap y); lia).
  assert (D (1000 - zero_year) = E - 354285) as B1 by by vm_compute. assert (D (3000 - zero_year) = E + 376200) as B2 by by vm_compute.
  destruct (Z.le_gt_cases 1000 y) as [Ha|Ha]; [|pose proof (D_mono (y - zero_year) (1000 - zero_year) ltac:(lia)); lia].
  destruct (Z.le_gt_cases y 3000) as [Hb|Hb]; [lia|]. pose proof (D_mono (3000 - zero_year) (y - zero_year) ltac:(lia)). lia.
Qed.
Lemma unix_date_spec n y m d h mi s : calendar n (y, m, d) -> 0 <= y <= 9999 -> 0 <= h <= 23 -> 0 <= mi <= 59 -> 0 <= s <= 59 ->
  unix_date y m d h mi s = n * 86400 + h * 3600 + mi * 60 + s.
Proof.
  intros Hc Hy Hh Hmi Hs. apply calendar_abs in Hc. symmetry in Hc. pose proof (year_days _ _ _ _ Hc Hy) as Hn.
  apply abs_date_inverse in Hc; [|unfold zero_year; p2; lia]. unfold unix_date. cbn zeta. rewrite Hc, abs_epoch_E. unfold u64. unfold E in *. rewrite Z.mod_small by (p2; lia).
  rewrite wrap64_id; [lia|]. unfold int64_ok. p2. lia.
Qed.
Lemma days_in_spec y m : 1 <= m <= 12 -> days_in m y = month_length y m.
Proof.
  intros H. rewrite <- mlen_length. unfold days_in. assert (m = 1 \/ m = 2 \/ m = 3 \/ m = 4 \/ m = 5 \/ m = 6 \/ m = 7 \/ m = 8 \/ m = 9 \/ m = 10 \/ m = 11 \/ m = 12) as Hm by lia.
  destruct (is_leap y); repeat (destruct Hm as [->|Hm]; [by vm_compute|]); subst; by vm_compute.
Qed.
Lemma decimals_range w x l : decimals w x l -> 0 <= x < 10 ^ Z.of_nat w.
Proof. intros (<- & F & <-). by apply dec_value_bound. Qed.
Lemma within_ok lo hi x : lo <= x <= hi -> within_range lo hi x = Some tt.
Proof. intros H. unfold within_range. rewrite (proj2 (Z.leb_le _ _)), (proj2 (Z.leb_le _ _)) by lia. done. Qed.

Lemma parse_rfc3339 l ns : rfc3339 l ns -> exists sec nsec, parse_time (quoted l) = Some (sec, nsec) /\ ns = sec * 1000000000 + nsec.
Proof.
  intros (n & y & mo & d & h & mi & s & f & off & ty & tmo & td & th & tmi & ts & tf & tz & -> & Hy & Hmo & Hd & Hh & Hmi & Hs & Hc & Bh & Bmi & Bs & Hf & Hz & ->).
  assert (V : valid_date (y, mo, d)) by (apply calendar_abs in Hc as ->; apply abs_date_valid). destruct V as [Vm Vd].
  pose proof (decimals_range _ _ _ Hy) as Ry. pose proof (decimals_range _ _ _ Hh) as Rh. pose proof (decimals_range _ _ _ Hmi) as Rmi. pose proof (decimals_range _ _ _ Hs) as Rs.
  change (10 ^ Z.of_nat 4) with 10000 in *. change (10 ^ Z.of_nat 2) with 100 in *.
  exists (n * 86400 + h * 3600 + mi * 60 + s - off), f. split; [|lia]. unfold parse_time, quoted. cbn [skip_byte Z.eqb Pos.eqb mbind option_bind].
  repeat (rewrite <- ?app_assoc; cbn [app]).
  rewrite (parse_year_decimals y) by done. cbn [skip_byte Z.eqb Pos.eqb mbind option_bind].
  rewrite (get_num_decimals true mo) by done. cbn [mbind option_bind]. rewrite (within_ok 1 12 mo) by lia. cbn [skip_byte Z.eqb Pos.eqb mbind option_bind].
  rewrite (get_num_decimals true d) by done. cbn [skip_byte Z.eqb Pos.eqb mbind option_bind].
  rewrite (get_num_decimals false h) by done. cbn [mbind option_bind]. rewrite (within_ok 0 23 h) by lia. cbn [skip_byte Z.eqb Pos.eqb mbind option_bind].
  rewrite (get_num_decimals true mi) by done. cbn [mbind option_bind]. rewrite (within_ok 0 59 mi) by lia. cbn [skip_byte Z.eqb Pos.eqb mbind option_bind].
  rewrite (get_num_decimals true s) by done. cbn [mbind option_bind]. rewrite (within_ok 0 59 s) by lia. cbn [mbind option_bind].
  rewrite (parse_fraction_text f tf off tz) by done. cbn [mbind option_bind]. rewrite (parse_zone_text off) by done. cbn [skip_byte Z.eqb Pos.eqb mbind option_bind].
  rewrite days_in_spec, within_ok by lia. cbn [mbind option_bind]. rewrite (unix_date_spec n) by (done || lia). done.
Qed.
Lemma unmarshal_rfc3339 l ns : rfc3339 l ns -> ts_unmarshal_json (quoted l) = Some (wrap64 ns).
Proof. intros H. apply parse_rfc3339 in H as (sec & nsec & E1 & ->). unfold ts_unmarshal_json. rewrite decide_False by done. by rewrite E1. Qed.

Lemma unix_split_spec ns : unix_split ns = (ns / 1000000000, ns mod 1000000000).
Proof.
  unfold unix_split. destruct (Z.ltb_spec ns 0); cbn [orb]; [|destruct (Z.leb_spec 1000000000 ns)].
  - cbn zeta. destruct (Z.ltb_spec (ns - Z.quot ns 1000000000 * 1000000000) 0); f_equal; Z.quot_rem_to_equations; Z.div_mod_to_equations; lia.
  - cbn zeta. destruct (Z.ltb_spec (ns - Z.quot ns 1000000000 * 1000000000) 0); f_equal; Z.quot_rem_to_equations; Z.div_mod_to_equations; lia.
  - f_equal; Z.div_mod_to_equations; lia.
Qed.
Lemma format_zone_spec off : - 86400 < off < 86400 -> offset_text (off - Z.rem off 60) (format_zone off).
Proof.
  intros H. unfold format_zone. destruct (Z.eqb_spec off 0) as [->|Hne]; [by left|]. right. cbn zeta.
  set (q := Z.quot off 60). assert (Hq : -1440 < q < 1440 /\ off - Z.rem off 60 = 60 * q) by (unfold q; Z.quot_rem_to_equations; lia). destruct Hq as [Hq ->]. clearbody q.
  assert (HX : forall z, 0 <= z < 1440 -> exists h m hh mm, append_int (Z.quot z 60) 2 ++ [58] ++ append_int (Z.rem z 60) 2 = hh ++ 58 :: mm /\
    decimals 2 h hh /\ decimals 2 m mm /\ h <= 23 /\ m <= 59 /\ h * 60 + m = z).
  { intros z Hz. set (h := Z.quot z 60). set (m := Z.rem z 60). assert (B : 0 <= h <= 23 /\ 0 <= m <= 59 /\ h * 60 + m = z) by (unfold h, m; Z.quot_rem_to_equations; lia).
    clearbody h m. exists h, m, (append_int h 2), (append_int m 2). split; [done|]. do 2 (split; [apply pad_int_decimals; change (10 ^ Z.of_nat 2) with 100; lia|]). lia. }
  destruct (Z.ltb_spec q 0) as [Hz|Hz].
  - destruct (HX (- q)) as (h & m & hh & mm & -> & Hh & Hm & ? & ? & ?); [lia|]. exists 45, h, m, hh, mm. do 5 (split; [done|]). right. split; [done|]. lia.
  - destruct (HX q) as (h & m & hh & mm & -> & Hh & Hm & ? & ? & ?); [lia|]. exists 43, h, m, hh, mm. do 5 (split; [done|]). left. split; [done|]. lia.
Qed.
Lemma marshal_rfc3339 zone ts : int64_ok ts -> - 86400 < zone (ts / 1000000000) < 86400 ->
  exists l, ts_marshal_json zone ts = quoted l /\ rfc3339 l (ts + Z.rem (zone (ts / 1000000000)) 60 * 1000000000).
Proof.
  intros Hts Ho. unfold ts_marshal_json. rewrite unix_split_spec. set (sec := ts / 1000000000) in *. set (nsec := ts mod 1000000000).
  assert (Ht : ts = sec * 1000000000 + nsec /\ 0 <= nsec < 1000000000) by (unfold sec, nsec; Z.div_mod_to_equations; lia).
  assert (Hs : - 9300000000 <= sec <= 9300000000) by (unfold int64_ok in Hts; p2; lia). clearbody sec nsec. destruct Ht as [-> Hn].
  unfold format_time. set (off := zone sec) in *. clearbody off.
  set (loc := sec + off). replace (sec + (off + abs_epoch)) with (loc + E * 86400) by (unfold loc; rewrite abs_epoch_E; lia).
  assert (Hl : - 9400000000 <= loc <= 9400000000) by (unfold loc; lia).
  assert (Eloc : sec = loc - off) by (unfold loc; lia). clearbody loc. subst sec.
  unfold u64. rewrite Z.mod_small by (unfold E; p2; lia). rewrite Z.div_add, Z.mod_add by lia.
  set (n := loc / 86400). set (r := loc mod 86400). assert (Hr : loc = n * 86400 + r /\ 0 <= r < 86400) by (unfold n, r; Z.div_mod_to_equations; lia).
  assert (Hnn : -200000 <= n <= 200000) by lia. clearbody n r. destruct Hr as [-> Hr].
  destruct (abs_date (n + E)) as [[y m] d] eqn:Ed. pose proof (days_year _ _ _ _ Ed Hnn) as Hy.
  assert (Hc : calendar n (y, m, d)) by by apply calendar_abs. pose proof (abs_date_valid (n + E)) as V. rewrite Ed in V. destruct V as [Vm Vd].
  assert (Hml : month_length y m <= 31) by (unfold month_length; repeat destruct (decide _); lia).
  cbn zeta. eexists. split; [reflexivity|].
  set (hh := r / 3600). set (mi := (r - hh * 3600) / 60). set (ss := r - hh * 3600 - mi * 60).
  assert (B : 0 <= hh <= 23 /\ 0 <= mi <= 59 /\ 0 <= ss <= 59 /\ r = hh * 3600 + mi * 60 + ss) by (unfold ss, mi, hh; Z.div_mod_to_equations; lia). clearbody ss. clearbody mi. clearbody hh.
  exists n, y, m, d, hh, mi, ss, nsec, (off - Z.rem off 60), (append_int y 4), (append_int m 2), (append_int d 2), (append_int hh 2), (append_int mi 2), (append_int ss 2), (format_nano nsec), (format_zone off).
  split; [done|].
  split; [apply pad_int_decimals; change (10 ^ Z.of_nat 4) with 10000; lia|].
  do 5 (split; [apply pad_int_decimals; change (10 ^ Z.of_nat 2) with 100; lia|]).
  split; [done|]. do 3 (split; [lia|]). split; [by apply format_nano_spec|]. split; [by apply format_zone_spec|]. lia.
Qed.
Lemma timestamp_roundtrip zone ts : int64_ok ts -> - 86400 < zone (ts / 1000000000) < 86400 -> Z.rem (zone (ts / 1000000000)) 60 = 0 ->
  ts_unmarshal_json (ts_marshal_json zone ts) = Some ts.
Proof.
  intros Hts Ho Hz. destruct (marshal_rfc3339 zone ts Hts Ho) as (l & -> & H). rewrite Hz, Z.mul_0_l, Z.add_0_r in H. rewrite (unmarshal_rfc3339 l ts H). by rewrite wrap64_id.
Qed.

Lemma unmarshal_exact l ns : rfc3339 l ns -> int64_ok ns -> ts_unmarshal_json (quoted l) = Some ns.
Proof. intros H Hn. rewrite (unmarshal_rfc3339 l ns H). by rewrite wrap64_id. Qed.

Lemma calendar_unique n : exists d, calendar n d /\ valid_date d /\ forall d', calendar n d' -> d' = d.
Proof.
  exists (abs_date (n + E)). split; [by apply calendar_abs|]. split; [apply abs_date_valid|]. intros d' H. by apply calendar_abs.
Qed.

Ltac decimals_ok := split; [reflexivity|split; [repeat (apply Forall_cons_2; [vm_compute; split; congruence|]); apply Forall_nil_2|reflexivity]].
Lemma text_instance : rfc3339 (str "2000-02-29T12:30:00.25-03:30") 951840000250000000.
Proof.
  exists 11016, 2000, 2, 29, 12, 30, 0, 250000000, (-12600), (str "2000"), (str "02"), (str "29"), (str "12"), (str "30"), (str "00"), (str ".25"), (str "-03:30").
  split; [reflexivity|]. do 6 (split; [decimals_ok|]). split; [by apply calendar_abs|]. split; [lia|]. split; [lia|]. split; [lia|].
  split.
  { right. exists (str "25"). split; [done|]. split; [split; [repeat (apply Forall_cons_2; [vm_compute; split; congruence|]); apply Forall_nil_2|done]|]. split; [cbn; lia|reflexivity]. }
  split; [|lia].
  right. exists 45, 3, 30, (str "03"), (str "30"). split; [done|]. split; [decimals_ok|]. split; [decimals_ok|]. split; [lia|]. split; [lia|]. right. split; lia.
Qed.

Lemma zone_seconds : exists zone ts, int64_ok ts /\ - 86400 < zone (ts / 1000000000) < 86400 /\
    ts_marshal_json zone ts = str """1890-01-01T00:00:00+00:53""" /\
    exists ts', ts_unmarshal_json (ts_marshal_json zone ts) = Some ts' /\ ts' - ts = 28 * 1000000000.
Proof.
  exists (fun _ => 3208), (-2524524808000000000). split; [zlia|]. split; [lia|]. split; [vm_compute; reflexivity|].
  eexists. split; [vm_compute; reflexivity|]. lia.
Qed.

Lemma range_wraps : exists l ns v, rfc3339 l ns /\ ~ int64_ok ns /\ ts_unmarshal_json (quoted l) = Some v /\ v <> ns /\
    l = str "2300-01-01T00:00:00Z" /\ ts_marshal_json (fun _ => 0) v = str """1715-06-13T00:25:26.290448384Z""".
Proof.
  exists (str "2300-01-01T00:00:00Z"), 10413792000000000000, (-8032952073709551616). split; [|split; [unfold int64_ok; p2; lia|split; [vm_compute; reflexivity|split; [lia|split; [done|vm_compute; reflexivity]]]]].
  exists 120530, 2300, 1, 1, 0, 0, 0, 0, 0, (str "2300"), (str "01"), (str "01"), (str "00"), (str "00"), (str "00"), [], (str "Z").
  split; [reflexivity|]. do 6 (split; [decimals_ok|]). split; [apply calendar_abs; vm_compute; reflexivity|]. split; [lia|]. split; [lia|]. split; [lia|].
  split; [left; done|]. split; [left; done|]. lia.
Qed.

Lemma null_is_read : ts_unmarshal_json (str "null") = Some (-6795364578871345152) /\
  ts_marshal_json (fun _ => 0) (-6795364578871345152) = str """1754-08-30T22:43:41.128654848Z""".
Proof. split; vm_compute; reflexivity. Qed.
Lemma long_fraction : ts_unmarshal_json (str """1970-01-01T00:00:00.0000000010Z""") = Some 10 /\
  ts_unmarshal_json (str """1970-01-01T00:00:00.000000001Z""") = Some 1.
Proof. split; vm_compute; reflexivity. Qed.
