(** C83: exactly the texts that are read as timestamps. *)
From Verif Require Import Base SpanModel JsonSpec DocSpec TimeModel TimeSpec TimeProofs TimeLooseSpec.

(* ---------- every date has a day ---------- *)

Definition day_ok (b : bool) (m d : Z) : bool :=
  let yd := days_before (m - 1) + (if b && (3 <=? m) then 1 else 0) + (d - 1) in
  negb (d <=? mlen b m) || (bool_decide (abs_month b yd = (m, d)) && (0 <=? yd) && (yd <? year_length b)).
Lemma all_days : forallb (fun b => forallb (fun m => forallb (fun d => day_ok b (Z.of_nat m) (Z.of_nat d)) (seq 1 31)) (seq 1 12)) [true; false] = true.
Proof. by vm_compute. Qed.
Lemma mlen_le b m : mlen b m <= 31.
Proof. unfold mlen. repeat destruct (decide _); destruct b; lia. Qed.
Lemma day_fact b m d : 1 <= m <= 12 -> 1 <= d <= mlen b m -> exists yd, abs_month b yd = (m, d) /\ 0 <= yd < year_length b.
Proof.
  intros Hm Hd. pose proof all_days as A. pose proof (mlen_le b m) as L. rewrite forallb_forall in A. specialize (A b ltac:(destruct b; cbn; tauto)). rewrite forallb_forall in A.
  specialize (A (Z.to_nat m) ltac:(apply in_seq; lia)). rewrite forallb_forall in A. specialize (A (Z.to_nat d) ltac:(apply in_seq; lia)).
  unfold day_ok in A. rewrite !Z2Nat.id in A by lia. apply orb_prop in A as [A|A]; [apply negb_true_iff, Z.leb_gt in A; lia|].
  apply andb_prop in A as [A A3]. apply andb_prop in A as [A1 A2]. apply bool_decide_eq_true in A1. apply Z.leb_le in A2. apply Z.ltb_lt in A3. eauto.
Qed.
Lemma calendar_total y m d : valid_date (y, m, d) -> exists n, calendar n (y, m, d).
Proof.
  intros [Hm Hd]. rewrite <- mlen_length in Hd. destruct (day_fact (is_leap y) m d Hm Hd) as (yd & E1 & E2).
  exists (D (y - zero_year) + yd - E). apply calendar_abs. unfold abs_date. rewrite (abs_year_unique (D (y - zero_year) + yd - E + E) y yd) by (done || lia). by rewrite E1.
Qed.
Lemma calendar_valid n d : calendar n d -> valid_date d.
Proof. intros ->%calendar_abs. apply abs_date_valid. Qed.

(* ---------- the pieces ---------- *)

Lemma digit_val_inv c x : digit_val c = Some x -> 48 <= c <= 57 /\ x = c - 48.
Proof. unfold digit_val. destruct (Z.leb_spec 48 c), (Z.leb_spec c 57); cbn; intros [= <-]; lia. Qed.
Lemma digit_val_none c : digit_val c = None -> ~ 48 <= c <= 57.
Proof. intros H Hc. rewrite digit_val_ok in H by done. done. Qed.
Lemma one_digit x d : decimals 1 x [d] <-> 48 <= d <= 57 /\ x = d - 48.
Proof.
  unfold decimals. rewrite Forall_singleton. cbn [length dec_value]. split; [intros (_ & ? & <-)|intros [? ->]]; repeat split; lia.
Qed.
Lemma two_digits x a b : decimals 2 x [a; b] <-> 48 <= a <= 57 /\ 48 <= b <= 57 /\ x = (a - 48) * 10 + (b - 48).
Proof.
  unfold decimals. rewrite Forall_cons, Forall_singleton. cbn [length dec_value]. split; [intros (_ & (? & ?) & <-)|intros (? & ? & ->)]; repeat split; lia.
Qed.

Lemma get_num_inv l x r : get_num true l = Some (x, r) -> exists t, l = t ++ r /\ decimals 2 x t.
Proof.
  destruct l as [|a l]; [done|]. cbn [get_num]. destruct (digit_val a) as [xa|] eqn:Ea; [|done]. destruct l as [|b l]; [done|]. destruct (digit_val b) as [xb|] eqn:Eb; [|done].
  intros [= <- <-]. apply digit_val_inv in Ea as [? ->]. apply digit_val_inv in Eb as [? ->]. exists [a; b]. split; [done|]. by apply two_digits.
Qed.
Lemma get_hour_inv l x r : get_num false l = Some (x, r) -> exists t, l = t ++ r /\ loose_hour x t.
Proof.
  destruct l as [|a l]; [done|]. cbn [get_num]. destruct (digit_val a) as [xa|] eqn:Ea; [|done]. apply digit_val_inv in Ea as [? ->]. destruct l as [|b l].
  - intros [= <- <-]. exists [a]. split; [done|]. right. by apply one_digit.
  - destruct (digit_val b) as [xb|] eqn:Eb; intros [= <- <-].
    + apply digit_val_inv in Eb as [? ->]. exists [a; b]. split; [done|]. left. by apply two_digits.
    + exists [a]. split; [done|]. right. by apply one_digit.
Qed.
Lemma get_hour x t r : loose_hour x t -> get_num false (t ++ 58 :: r) = Some (x, 58 :: r).
Proof.
  intros [H|H]; [by apply get_num_decimals|]. destruct t as [|a [|b t]]; try (by destruct H). apply one_digit in H as [Ha ->]. cbn [app get_num]. by rewrite digit_val_ok.
Qed.
Lemma parse_year_inv l x r : parse_year l = Some (x, r) -> exists t, l = t ++ r /\ decimals 4 x t.
Proof.
  destruct l as [|a [|b [|c [|d l]]]]; try done. cbn [parse_year]. destruct (digit_val a) eqn:Ea; [|done]. destruct (digit_val b) eqn:Eb; [|done]. destruct (digit_val c) eqn:Ec; [|done].
  destruct (digit_val d) eqn:Ed; [|done]. intros [= <- <-]. apply digit_val_inv in Ea as [? ->], Eb as [? ->], Ec as [? ->], Ed as [? ->]. exists [a; b; c; d]. split; [done|].
  split; [done|]. split; [repeat (apply Forall_cons_2; [done|]); apply Forall_nil_2|]. cbn [dec_value]. lia.
Qed.
Lemma skip_byte_inv c l r : skip_byte c l = Some r -> l = c :: r.
Proof. destruct l as [|x l]; [done|]. cbn [skip_byte]. destruct (Z.eqb_spec x c) as [->|]; [|done]. by intros [= ->]. Qed.
Lemma within_inv lo hi x u : within_range lo hi x = Some u -> lo <= x <= hi.
Proof. unfold within_range. destruct (Z.leb_spec lo x), (Z.leb_spec x hi); cbn; by intros [=]. Qed.

Lemma atoi2_pair a b x : atoi2 a b = Some x <-> loose_pair x [a; b].
Proof.
  unfold atoi2, loose_pair. destruct (Z.eqb_spec a 45) as [->|H45]; [|destruct (Z.eqb_spec a 43) as [->|H43]].
  - split.
    + destruct (digit_val b) as [y|] eqn:Eb; [|done]. apply digit_val_inv in Eb as [? ->]. intros [= <-]. right. right. exists [b]. split; [done|]. apply one_digit. lia.
    + intros [H|[(d & [=] & _)|(d & [= <-] & H)]]; [apply two_digits in H; lia|]. apply one_digit in H as [Hb Hx]. rewrite digit_val_ok by done. cbn. f_equal. lia.
  - split.
    + intros Eb. apply digit_val_inv in Eb as [? ->]. right. left. exists [b]. split; [done|]. by apply one_digit.
    + intros [H|[(d & [= <-] & H)|(d & [=] & _)]]; [apply two_digits in H; lia|]. apply one_digit in H as [Hb ->]. by apply digit_val_ok.
  - split.
    + destruct (digit_val a) eqn:Ea; [|done]. destruct (digit_val b) eqn:Eb; [|done]. apply digit_val_inv in Ea as [? ->], Eb as [? ->]. intros [= <-]. left. by apply two_digits.
    + intros [H|[(d & [= -> _] & _)|(d & [= -> _] & _)]]; [|done|done]. apply two_digits in H as (Ha & Hb & ->). by rewrite !digit_val_ok.
Qed.
Lemma pair_two x l : loose_pair x l -> exists a b, l = [a; b].
Proof.
  intros [(L & _)|[(d & -> & L & _)|(d & -> & L & _)]].
  - destruct l as [|a [|b [|]]]; try done. by exists a, b.
  - destruct d as [|b [|]]; try done. by exists 43, b.
  - destruct d as [|b [|]]; try done. by exists 45, b.
Qed.
Lemma parse_zone_inv l off r : parse_zone l = Some (off, r) -> exists t, l = t ++ r /\ loose_offset off t.
Proof.
  destruct l as [|s l]; [done|]. cbn [parse_zone]. destruct (Z.eqb_spec s 90) as [->|Hs].
  { intros [= <- <-]. exists [90]. split; [done|]. by left. }
  destruct l as [|h1 [|h2 [|c [|m1 [|m2 l]]]]]; try done. destruct (Z.eqb_spec c 58) as [->|]; [|done]. destruct (atoi2 h1 h2) as [h|] eqn:Eh; [|done]. destruct (atoi2 m1 m2) as [m|] eqn:Em; [|done].
  apply atoi2_pair in Eh, Em. intros H. exists [s; h1; h2; 58; m1; m2].
  assert (Hr : l = r /\ (s = 43 /\ off = (h * 60 + m) * 60 \/ s = 45 /\ off = - ((h * 60 + m) * 60))).
  { destruct (Z.eqb_spec s 43) as [->|]; [by injection H as <- <-; auto|]. destruct (Z.eqb_spec s 45) as [->|]; [|done]. injection H as <- <-. auto. }
  destruct Hr as [-> Hr]. split; [done|]. right. by exists s, h, m, [h1; h2], [m1; m2].
Qed.
Lemma parse_zone_loose off l r : loose_offset off l -> parse_zone (l ++ r) = Some (off, r).
Proof.
  intros [[-> ->]|(sign & h & m & hh & mm & -> & Hh & Hm & Hs)]; [done|].
  destruct (pair_two _ _ Hh) as (h1 & h2 & ->). destruct (pair_two _ _ Hm) as (m1 & m2 & ->). apply atoi2_pair in Hh, Hm. cbn [app parse_zone].
  destruct Hs as [[-> ->]|[-> ->]]; cbn -[atoi2 Z.mul Z.add]; by rewrite Hh, Hm.
Qed.
Lemma loose_offset_head off l : loose_offset off l -> exists c r, l = c :: r /\ digit_val c = None /\ c <> 46.
Proof. intros [[-> _]|(sign & h & m & hh & mm & -> & _ & _ & [[-> _]|[-> _]])]; by eexists _, _. Qed.

Lemma digit_run_inv l : forall ds rest, digit_run l = (ds, rest) -> l = ds ++ rest /\ Forall (fun c => 48 <= c <= 57) ds.
Proof.
  induction l as [|c l IH]; intros ds rest; cbn [digit_run]; [intros [= <- <-]; by split|]. destruct (digit_val c) eqn:Ec.
  - destruct (digit_run l) as [ds' rest'] eqn:Er. intros [= <- <-]. destruct (IH _ _ eq_refl) as [-> F]. split; [done|]. constructor; [by apply digit_val_inv in Ec as [? _]|done].
  - intros [= <- <-]. by split.
Qed.
Lemma parse_fraction_inv l f r off t r' : parse_fraction l = Some (f, r) -> r = t ++ r' -> loose_offset off t -> exists tf, l = tf ++ r /\ loose_nanos f tf.
Proof.
  intros H -> Ht. destruct (loose_offset_head _ _ Ht) as (c & t' & -> & _ & Hc). destruct l as [|p l]; [cbn in H; congruence|]. cbn [parse_fraction] in H. destruct (Z.eqb_spec p 46) as [->|Hp].
  - destruct (digit_run l) as [ds rest] eqn:Er. apply digit_run_inv in Er as [-> F]. destruct ds as [|d0 ds].
    + injection H as _ H. cbn [app] in H. congruence.
    + destruct (Z.leb_spec 1000000000 (digits_value 0 (d0 :: ds))) as [|Hb]; [done|]. injection H as <- ->. rewrite digits_value_dec in *. exists (46 :: d0 :: ds). split; [done|]. right. exists (d0 :: ds). done.
  - injection H as <- H1 H2. exists []. split; [cbn; congruence|]. by left.
Qed.
Lemma parse_fraction_loose f l off tz r : loose_nanos f l -> loose_offset off tz -> parse_fraction (l ++ tz ++ r) = Some (f, tz ++ r).
Proof.
  intros Hf Hz. apply loose_offset_head in Hz as (c & z & -> & Hc & H46). destruct Hf as [[-> ->]|(ds & -> & [F Hne] & Hl & ->)]; cbn [app parse_fraction].
  - destruct (Z.eqb_spec c 46); done.
  - cbn [Z.eqb Pos.eqb]. rewrite (digit_run_all ds (c :: z ++ r) F Hc). destruct ds as [|d0 ds]; [done|]. rewrite digits_value_dec. destruct (Z.leb_spec 1000000000 (dec_value 0 (d0 :: ds))); [lia|done].
Qed.

(* ---------- the whole ---------- *)

Lemma parse_loose l ns : loose_time l ns -> exists sec nsec, parse_time (quoted l) = Some (sec, nsec) /\ ns = sec * 1000000000 + nsec.
Proof.
  intros (n & y & mo & d & h & mi & s & f & off & ty & tmo & td & th & tmi & ts & tf & tz & -> & Hy & Hmo & Hd & Hh & Hmi & Hs & Hc & Bh & Bmi & Bs & Hf & Hz & ->).
  pose proof (calendar_valid _ _ Hc) as [Vm Vd].
  pose proof (decimals_range _ _ _ Hy) as Ry. pose proof (decimals_range _ _ _ Hmi) as Rmi. pose proof (decimals_range _ _ _ Hs) as Rs.
  assert (Rh : 0 <= h) by (destruct Hh as [H|H]; apply decimals_range in H; lia).
  change (10 ^ Z.of_nat 4) with 10000 in *. change (10 ^ Z.of_nat 2) with 100 in *.
  exists (n * 86400 + h * 3600 + mi * 60 + s - off), f. split; [|lia]. unfold parse_time, quoted. cbn [skip_byte Z.eqb Pos.eqb mbind option_bind].
  repeat (rewrite <- ?app_assoc; cbn [app]).
  rewrite (parse_year_decimals y) by done. cbn [skip_byte Z.eqb Pos.eqb mbind option_bind].
  rewrite (get_num_decimals true mo) by done. cbn [mbind option_bind]. rewrite (within_ok 1 12 mo) by lia. cbn [skip_byte Z.eqb Pos.eqb mbind option_bind].
  rewrite (get_num_decimals true d) by done. cbn [skip_byte Z.eqb Pos.eqb mbind option_bind].
  rewrite (get_hour h) by done. cbn [mbind option_bind]. rewrite (within_ok 0 23 h) by lia. cbn [skip_byte Z.eqb Pos.eqb mbind option_bind].
  rewrite (get_num_decimals true mi) by done. cbn [mbind option_bind]. rewrite (within_ok 0 59 mi) by lia. cbn [skip_byte Z.eqb Pos.eqb mbind option_bind].
  rewrite (get_num_decimals true s) by done. cbn [mbind option_bind]. rewrite (within_ok 0 59 s) by lia. cbn [mbind option_bind].
  rewrite (parse_fraction_loose f tf off tz) by done. cbn [mbind option_bind]. rewrite (parse_zone_loose off) by done. cbn [skip_byte Z.eqb Pos.eqb mbind option_bind].
  rewrite days_in_spec, within_ok by lia. cbn [mbind option_bind]. rewrite (unix_date_spec n) by (done || lia). done.
Qed.

Lemma parse_inv t sec nsec : parse_time t = Some (sec, nsec) -> exists l, t = quoted l /\ loose_time l (sec * 1000000000 + nsec).
Proof.
  unfold parse_time. intros H.
  repeat match type of H with
  | context [mbind ?f (skip_byte ?c ?l)] => let E := fresh "E" in destruct (skip_byte c l) eqn:E; cbn [mbind option_bind] in H; [apply skip_byte_inv in E|done]
  | context [mbind ?f (parse_year ?l)] => let E := fresh "E" in destruct (parse_year l) as [[? ?]|] eqn:E; cbn [mbind option_bind] in H; [apply parse_year_inv in E as (? & ? & ?)|done]
  | context [mbind ?f (get_num true ?l)] => let E := fresh "E" in destruct (get_num true l) as [[? ?]|] eqn:E; cbn [mbind option_bind] in H; [apply get_num_inv in E as (? & ? & ?)|done]
  | context [mbind ?f (get_num false ?l)] => let E := fresh "E" in destruct (get_num false l) as [[? ?]|] eqn:E; cbn [mbind option_bind] in H; [apply get_hour_inv in E as (? & ? & ?)|done]
  | context [mbind ?f (within_range ?a ?b ?l)] => let E := fresh "E" in destruct (within_range a b l) eqn:E; cbn [mbind option_bind] in H; [apply within_inv in E|done]
  | context [mbind ?f (parse_fraction ?l)] => let E := fresh "EF" in destruct (parse_fraction l) as [[? ?]|] eqn:E; cbn [mbind option_bind] in H; [|done]
  | context [mbind ?f (parse_zone ?l)] => let E := fresh "E" in destruct (parse_zone l) as [[? ?]|] eqn:E; cbn [mbind option_bind] in H; [apply parse_zone_inv in E as (? & ? & ?)|done]
  end.
  destruct l13; [|done]. destruct (within_range 1 (days_in z0 z) z1) eqn:EW; cbn [mbind option_bind] in H; [|done]. apply within_inv in EW. rewrite days_in_spec in EW by done.
  injection H as <- <-. destruct (parse_fraction_inv _ _ _ _ _ _ EF H12 H13) as (tf & Htf & Hf). destruct (calendar_total z z0 z1) as [n Hn]; [by split|].
  pose proof (decimals_range _ _ _ H1) as Ry. change (10 ^ Z.of_nat 4) with 10000 in Ry.
  exists (x ++ 45 :: x0 ++ 45 :: x1 ++ 84 :: x2 ++ 58 :: x3 ++ 58 :: x4 ++ tf ++ x5). split.
  { subst. unfold quoted. by repeat (rewrite <- ?app_assoc; cbn [app]). }
  exists n, z, z0, z1, z2, z3, z4, z5, z6, x, x0, x1, x2, x3, x4, tf, x5. repeat (split; [done || lia|]). rewrite (unix_date_spec n) by (done || lia). lia.
Qed.

Lemma unmarshal_iff t v : ts_unmarshal_json t = Some v <->
  (t = str "null" /\ v = wrap64 (-62135596800 * 1000000000)) \/ exists l ns, t = quoted l /\ loose_time l ns /\ v = wrap64 ns.
Proof.
  unfold ts_unmarshal_json. destruct (decide (t = str "null")) as [->|Hn].
  - split; [intros [= <-]; by left|]. intros [[_ ->]|(l & ns & E & _)]; [|done]. unfold unix_nano. by rewrite Z.add_0_r.
  - split.
    + destruct (parse_time t) as [[sec nsec]|] eqn:E; [|done]. intros [= <-]. apply parse_inv in E as (l & -> & H). right. by exists l, (sec * 1000000000 + nsec).
    + intros [[-> _]|(l & ns & -> & H & ->)]; [done|]. apply parse_loose in H as (sec & nsec & -> & ->). done.
Qed.

(** RFC 3339 is a part of it. *)
Lemma rfc3339_loose l ns : rfc3339 l ns -> loose_time l ns.
Proof.
  intros (n & y & mo & d & h & mi & s & f & off & ty & tmo & td & th & tmi & ts & tf & tz & -> & Hy & Hmo & Hd & Hh & Hmi & Hs & Hc & Bh & Bmi & Bs & Hf & Hz & ->).
  exists n, y, mo, d, h, mi, s, f, off, ty, tmo, td, th, tmi, ts, tf, tz. do 4 (split; [done|]). split; [by left|]. do 6 (split; [done|]). split; [|split; [|done]].
  - destruct Hf as [H|(ds & -> & [F Hne] & Hl & ->)]; [by left|]. right. exists ds. split; [done|]. split; [done|]. pose proof (dec_value_bound ds F) as [_ Hb]. split.
    + eapply Z.lt_le_trans; [exact Hb|]. change 1000000000 with (10 ^ 9). apply Z.pow_le_mono_r; lia.
    + f_equal. f_equal. lia.
  - destruct Hz as [H|(sign & a & b & hh & mm & -> & Ha & Hb & _ & _ & H)]; [by left|]. right. exists sign, a, b, hh, mm. split; [done|]. split; [by left|]. split; [by left|]. done.
Qed.
Lemma loose_texts : ts_unmarshal_json (str """2021-02-28T7:00:00+99:-5""") = Some (wrap64 ((1614495600 - (99 * 60 - 5) * 60) * 1000000000)) /\
  loose_time (str "2021-02-28T7:00:00+99:-5") ((1614495600 - (99 * 60 - 5) * 60) * 1000000000) /\
  (forall ns, ~ loose_time (str "2021-02-00T07:00:00Z") ns) /\ (forall ns, ~ loose_time (str "2021-02-29T07:00:00Z") ns) /\ (forall ns, ~ loose_time (str "2021-02-28T07:00:00") ns).
Proof.
  assert (H : ts_unmarshal_json (str """2021-02-28T7:00:00+99:-5""") = Some (wrap64 ((1614495600 - (99 * 60 - 5) * 60) * 1000000000))) by (vm_compute; reflexivity).
  split; [done|]. split.
  - assert (E : parse_time (quoted (str "2021-02-28T7:00:00+99:-5")) = Some (1614495600 - (99 * 60 - 5) * 60, 0)) by (vm_compute; reflexivity).
    apply parse_inv in E as (l & E & H1). assert (l = str "2021-02-28T7:00:00+99:-5") as -> by (unfold quoted in E; injection E; intros; by apply (app_inv_tail [34])). by rewrite Z.add_0_r in H1.
  - split; [|split]; intros ns (sec & nsec & E & _)%parse_loose; by vm_compute in E.
Qed.
