(** Proofs about the ring (C47, C48). *)
From Verif Require Import Base SpanModel RingModel RingSpec.

Lemma to_slice_visible r : to_slice r = visible (r_spans r).
Proof.
  unfold to_slice, visible. induction (r_spans r) as [|s l IH]; [done|]. cbn [List.filter]. rewrite IH.
  destruct (Z.eqb_spec (s_id s) 0) as [E|E]; cbn [negb].
  - by rewrite filter_cons_False by lia.
  - by rewrite filter_cons_True.
Qed.

(** The array after writing [h]: [Ring] position [length h mod cap], the last [cap] of zeros and [h], rotated. *)
Definition window (cap : nat) (h : list span) : list span := lastn cap (replicate cap zero_span ++ h).

Lemma window_length cap h : length (window cap h) = cap.
Proof. unfold window, lastn. rewrite drop_length, app_length, replicate_length. lia. Qed.

Lemma window_snoc cap h x : (0 < cap)%nat -> window cap (h ++ [x]) = drop 1 (window cap h) ++ [x].
Proof.
  intros Hc. unfold window, lastn. rewrite app_assoc, !app_length, replicate_length. cbn [length].
  rewrite drop_app_le by (rewrite app_length, replicate_length; lia). f_equal. rewrite drop_drop. f_equal. lia.
Qed.

Lemma window_spec cap h : window cap h = replicate (cap - length h) zero_span ++ lastn cap h.
Proof.
  unfold window, lastn. rewrite app_length, replicate_length.
  destruct (decide (cap <= length h)%nat).
  - replace (cap - length h)%nat with 0%nat by lia. cbn. rewrite drop_app_ge by (rewrite replicate_length; lia).
    f_equal. rewrite replicate_length. lia.
  - rewrite drop_app_le by (rewrite replicate_length; lia). replace (length h - cap)%nat with 0%nat by lia. cbn [drop].
    f_equal. replace (cap + length h - cap)%nat with (length h) by lia. by rewrite drop_replicate.
Qed.

Definition rotated (cap p : nat) (w : list span) : list span := drop (cap - p) w ++ take (cap - p) w.

Lemma ring_put_ok cap h x p : (0 < cap)%nat -> p = (length h mod cap)%nat ->
  ring_put (Ring p (rotated cap p (window cap h))) x =
  Some (Ring (length (h ++ [x]) mod cap) (rotated cap (length (h ++ [x]) mod cap) (window cap (h ++ [x])))).
Proof.
  intros Hc Hp. assert (Hlt : (p < cap)%nat) by (subst; apply Nat.mod_upper_bound; lia).
  assert (Hw := window_length cap h). set (w := window cap h) in *.
  unfold ring_put. cbn [r_pos r_spans].
  assert (Hlen : length (rotated cap p w) = cap) by (unfold rotated; rewrite app_length, drop_length, take_length; lia).
  rewrite Hlen, decide_True by done. rewrite app_length. cbn [length].
  assert (Hnext : ((length h + 1) mod cap)%nat = ((p + 1) mod cap)%nat) by (subst p; by rewrite Nat.add_mod_idemp_l by lia).
  rewrite Hnext, window_snoc by done. fold w. f_equal. f_equal.
  (* w = a ++ y :: b with length b = p *)
  assert (exists a y b, w = y :: a ++ b /\ length b = p) as (a & y & b & Ew & Eb).
  { destruct w as [|y w']; [cbn in Hw; lia|]. exists (take (cap - 1 - p) w'), y, (drop (cap - 1 - p) w'). cbn in Hw.
    rewrite take_drop. split; [done|]. rewrite drop_length. lia. }
  unfold rotated. rewrite Ew in *. clearbody w. clear Ew Hlen w. cbn in Hw. rewrite app_length in Hw.
  replace (cap - p)%nat with (S (length a)) by lia. cbn [drop take]. rewrite drop_app, take_app.
  rewrite insert_app_r_alt by lia. replace (p - length b)%nat with 0%nat by lia. cbn [insert list_insert]. rewrite drop_0.

  destruct (decide (p + 1 = cap)%nat) as [Ec|Ec].
  - rewrite Ec, Nat.mod_same by lia. rewrite Nat.sub_0_r. destruct a; [|cbn in Hw; lia]. cbn [app].
    rewrite drop_ge by (rewrite app_length; cbn [length]; cbn [length] in Hw; lia). rewrite take_ge by (rewrite app_length; cbn [length]; cbn [length] in Hw; lia). done.
  - rewrite Nat.mod_small by lia. replace (cap - (p + 1))%nat with (length a) by lia. rewrite <- app_assoc.
    rewrite drop_app, take_app. rewrite <- app_assoc. done.
Qed.

Lemma ring_trace_ok cap t : (0 < cap)%nat -> forall h,
  ring_trace (Ring (length h mod cap) (rotated cap (length h mod cap) (window cap h))) t =
  Some (Ring (length (h ++ t) mod cap) (rotated cap (length (h ++ t) mod cap) (window cap (h ++ t)))).
Proof.
  intros Hc. induction t as [|x t IH]; intros h; cbn [ring_trace].
  - by rewrite app_nil_r.
  - rewrite (ring_put_ok cap h x) by done. cbn [mbind option_bind]. rewrite IH. by rewrite <- !app_assoc.
Qed.

Lemma read_from_ok cap ts : (0 < cap)%nat -> forall h,
  read_from (Ring (length h mod cap) (rotated cap (length h mod cap) (window cap h))) ts =
  Some (Ring (length (h ++ concat ts) mod cap) (rotated cap (length (h ++ concat ts) mod cap) (window cap (h ++ concat ts)))).
Proof.
  intros Hc. induction ts as [|t ts IH]; intros h; cbn [read_from concat].
  - by rewrite app_nil_r.
  - rewrite ring_trace_ok by done. cbn [mbind option_bind]. rewrite IH. by rewrite <- !app_assoc.
Qed.

Lemma new_ring_ok cap : new_ring cap = Ring (length (@nil span) mod cap) (rotated cap (length (@nil span) mod cap) (window cap [])).
Proof.
  unfold new_ring. cbn [length]. replace (0 mod cap)%nat with 0%nat by (by destruct cap; [|rewrite Nat.mod_0_l]). unfold rotated. rewrite Nat.sub_0_r.
  rewrite drop_ge, take_ge by (rewrite window_length; lia). cbn [app]. f_equal.
  rewrite window_spec. cbn [length]. rewrite Nat.sub_0_r. unfold lastn. rewrite drop_nil. by rewrite app_nil_r.
Qed.

Lemma visible_app a b : visible (a ++ b) = visible a ++ visible b.
Proof. apply filter_app. Qed.

Lemma visible_zeros n : visible (replicate n zero_span) = [].
Proof. induction n as [|n IH]; [done|]. cbn [replicate]. unfold visible in *. rewrite filter_cons_False by (cbn; lia). done. Qed.

(** C47: [newer] are the spans written since the position last was zero. *)
Lemma ring_recent cap ts : (0 < cap)%nat ->
  exists r, read_from (new_ring cap) ts = Some r /\
  exists older newer, lastn cap (concat ts) = older ++ newer /\ length newer = (length (concat ts) mod cap)%nat /\
    to_slice r = visible newer ++ visible older.
Proof.
  intros Hc. rewrite new_ring_ok, read_from_ok by done. cbn [app]. eexists. split; [done|].
  set (h := concat ts). set (p := (length h mod cap)%nat).
  assert (Hp : (p < cap)%nat) by (apply Nat.mod_upper_bound; lia).
  assert (Hph : (p <= length h)%nat) by (apply Nat.mod_le; lia).
  exists (take (length (lastn cap h) - p) (lastn cap h)), (drop (length (lastn cap h) - p) (lastn cap h)).
  rewrite take_drop. split; [done|].
  assert (Hl : length (lastn cap h) = (cap `min` length h)%nat) by (unfold lastn; rewrite drop_length; lia).
  split. { rewrite drop_length. lia. }
  rewrite to_slice_visible. cbn [r_spans]. unfold rotated. rewrite visible_app, window_spec.
  destruct (decide (cap <= length h)%nat) as [Hf|Hf].
  - replace (cap - length h)%nat with 0%nat by lia. cbn [replicate app]. rewrite Hl, Nat.min_l by done. done.
  - assert (p = length h) as Ep by (apply Nat.mod_small; lia). rewrite Ep. rewrite Hl, Nat.min_r by lia. rewrite Nat.sub_diag.
    rewrite drop_app_alt, take_app_alt by (by rewrite replicate_length). by rewrite visible_zeros.
Qed.

(** C48, guarded *)
Lemma ring_in_order cap ts : (0 < cap)%nat -> (length (concat ts) <= cap)%nat \/ (length (concat ts) mod cap = 0)%nat ->
  exists r, read_from (new_ring cap) ts = Some r /\ to_slice r = visible (lastn cap (concat ts)).
Proof.
  intros Hc Hle. destruct (ring_recent cap ts Hc) as (r & E & older & newer & El & Hn & Es). exists r. split; [done|].
  rewrite Es, El, visible_app.
  assert (length newer = 0 \/ length older = 0)%nat as [H|H].
  - destruct Hle as [Hle|Hm]; [|left; lia].
    destruct (decide (length (concat ts) = cap)) as [Ec|Ec]; [left; rewrite Hn, Ec; apply Nat.mod_same; lia|].
    right. rewrite Nat.mod_small in Hn by lia. apply (f_equal length) in El. unfold lastn in El. rewrite drop_length, app_length in El. lia.
  - apply nil_length_inv in H as ->. cbn. by rewrite app_nil_r.
  - apply nil_length_inv in H as ->. cbn. by rewrite app_nil_r.
Qed.

Lemma ring_out_of_order : exists ts r, read_from (new_ring 2048) ts = Some r /\ to_slice r <> visible (lastn 2048 (concat ts)).
Proof.
  set (old := new_span [] 1 2 1). set (x := new_span [] 1 3 1).
  assert (exists C, C = 2048%nat) as [C EC] by eauto. rewrite <- EC.
  destruct (ring_recent C [replicate C old; [x]]) as (r & E & older & newer & El & Hn & Es); [lia|].
  exists [replicate C old; [x]], r. split; [done|]. cbn [concat] in *. rewrite app_nil_r in *.
  assert (Elast : lastn C (replicate C old ++ [x]) = replicate (C - 1) old ++ [x]).
  { unfold lastn. rewrite app_length, replicate_length. cbn [length]. rewrite drop_app_le by (rewrite replicate_length; lia).
    rewrite drop_replicate. f_equal. f_equal. lia. }
  rewrite app_length, replicate_length in Hn. cbn [length] in Hn.
  rewrite Elast in *. replace (C + 1)%nat with (1 + 1 * C)%nat in Hn by lia. rewrite Nat.mod_add, Nat.mod_small in Hn by lia.
  destruct newer as [|y [|]]; try done. apply app_inj_tail in El as [<- <-].
  rewrite Es, visible_app.
  assert (Hv : forall n, visible (replicate n old) = replicate n old).
  { induction n as [|n IH]; [done|]. cbn [replicate]. unfold visible in *. rewrite filter_cons_True by done. by rewrite IH. }
  rewrite Hv. unfold visible. rewrite filter_cons_True, filter_nil by done. intros Habs.
  replace (C - 1)%nat with (S (C - 2)) in Habs by lia. cbn [replicate app] in Habs. by inversion Habs.
Qed.

Lemma ring_capacity_zero s t ts : read_from (new_ring 0) ((s :: t) :: ts) = None.
Proof. done. Qed.
