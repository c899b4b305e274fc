(** Sharper forms of C18, C21, C44, C48 and C51. *)
From Verif Require Import Base SpanModel JsonModel CodecModel JsonPure JsonSpec JsonProofs JsonSim JsonFacts JsonSafe JsonText DocTheorems ParseSpec
  HandlerModel HandlerSpec RingModel RingSpec RingProofs TreeModel TreeSpec FinishModel FinishSpec FinishRun FinishTheorems
  DatadogModel DatadogSpec DatadogProofs DatadogTheorems ExactSpec.

(* ---------- C18 ---------- *)

Lemma v2_safe fuel buf src : ParseJsonV2 fuel buf src <> XPanic.
Proof. unfold ParseJsonV2. pose proof (exec_safe fuel (parse_v2_prog fuel) (new_parser src buf) (wf_new _ _)). by destruct (exec _ _ _). Qed.
Lemma v1_safe fuel buf pool src : ParseJsonV1 fuel buf pool src <> XPanic.
Proof. unfold ParseJsonV1. pose proof (exec_safe fuel (parse_v1_prog fuel pool) (new_parser src buf) (wf_new _ _)). by destruct (exec _ _ _). Qed.

Lemma enough_some chunks : exists n, enough_steps chunks n.
Proof. exists (3 + length chunks + 2 * length (concat chunks))%nat. unfold enough_steps. lia. Qed.

Lemma v2_ends_or_hangs buf chunks e : (5 <= length buf)%nat -> no_eager_error e ->
  (exists r, forall fuel, enough_steps chunks fuel -> ParseJsonV2 fuel buf (Src chunks e) = XDone r) \/
  (forall fuel, ParseJsonV2 fuel buf (Src chunks e) = XHang).
Proof.
  intros Hb He. destruct (enough_some chunks) as [n Hn]. destruct (ParseJsonV2 n buf (Src chunks e)) as [r| |] eqn:E.
  - left. exists r. intros fuel [H1 H2]. eapply v2_split_independent; [..|exact E]; try done; lia.
  - by apply v2_safe in E.
  - right. intros fuel. destruct (ParseJsonV2 fuel buf (Src chunks e)) as [r| |] eqn:E'; [|by apply v2_safe in E'|done].
    destruct Hn as [H1 H2]. eapply v2_split_independent in E'; [by rewrite E in E'|..]; try done; lia.
Qed.
Lemma v1_ends_or_hangs buf pool chunks e : (5 <= length buf)%nat -> no_eager_error e ->
  (exists r, forall fuel, enough_steps chunks fuel -> ParseJsonV1 fuel buf pool (Src chunks e) = XDone r) \/
  (forall fuel, ParseJsonV1 fuel buf pool (Src chunks e) = XHang).
Proof.
  intros Hb He. destruct (enough_some chunks) as [n Hn]. destruct (ParseJsonV1 n buf pool (Src chunks e)) as [r| |] eqn:E.
  - left. exists r. intros fuel [H1 H2]. eapply v1_split_independent; [..|exact E]; try done; lia.
  - by apply v1_safe in E.
  - right. intros fuel. destruct (ParseJsonV1 fuel buf pool (Src chunks e)) as [r| |] eqn:E'; [|by apply v1_safe in E'|done].
    destruct Hn as [H1 H2]. eapply v1_split_independent in E'; [by rewrite E in E'|..]; try done; lia.
Qed.

Lemma reads_fuel env q body n : reads env q body -> handle (with_fuel n env) q = handle_spans (with_fuel n env) q body.
Proof. unfold handle. intros [[-> H]|[H ->]]; [rewrite decide_True by done; cbn [with_fuel n_gunzip]; by rewrite H|by rewrite decide_False]. Qed.

Lemma answered_or_never env q chunks e : (5 <= length (n_buf env))%nat -> no_eager_error e -> reads env q (Src chunks e) ->
  (exists acts, forall n, enough_steps chunks n -> handle (with_fuel n env) q = XDone acts) \/ (forall n, handle (with_fuel n env) q = XHang).
Proof.
  intros Hb He Hr. setoid_rewrite (fun n => reads_fuel env q _ n Hr). unfold handle_spans, parse_spans, parser. cbn [with_fuel n_fuel n_buf n_pool n_jaeger].
  destruct (q_endpoint q).
  - destruct (contains _ _); [|left; by eexists].
    destruct (v1_ends_or_hangs (n_buf env) (n_pool env) chunks e Hb He) as [[r H]|H]; [left|right].
    + eexists. intros n Hn. rewrite (H n Hn). cbn [xmap]. done.
    + intros n. by rewrite H.
  - destruct (v2_ends_or_hangs (n_buf env) chunks e Hb He) as [[r H]|H]; [left|right].
    + eexists. intros n Hn. rewrite (H n Hn). cbn [xmap]. done.
    + intros n. by rewrite H.
  - left. eexists. intros n Hn. cbn [xmap]. done.
Qed.

Lemma long_name_unanswered env q chunks e x tail n : q_endpoint q = EV2 -> reads env q (Src chunks e) -> (5 <= length (n_buf env) < length x)%nat ->
  no_eager_error e -> Forall (fun c => c <> 34 /\ c <> 92) x -> concat chunks = str "[{""" ++ x ++ tail -> handle (with_fuel n env) q = XHang.
Proof.
  intros Hq Hr Hb He Hx Hc. rewrite (reads_fuel env q _ n Hr). unfold handle_spans, parse_spans, parser. rewrite Hq. cbn [with_fuel n_fuel n_buf].
  by rewrite (v2_hangs n (n_buf env) chunks e x tail).
Qed.

(* ---------- C21 ---------- *)

Lemma hex_is_fun c v v' : hex_is c v -> hex_is c v' -> v = v'. Proof. unfold hex_is. lia. Qed.
Lemma hex4_is_fun a b c d v v' : hex4_is a b c d v -> hex4_is a b c d v' -> v = v'.
Proof.
  intros (x & y & z & w & Hx & Hy & Hz & Hw & ->) (x' & y' & z' & w' & Hx' & Hy' & Hz' & Hw' & ->).
  by rewrite (hex_is_fun _ _ _ Hx Hx'), (hex_is_fun _ _ _ Hy Hy'), (hex_is_fun _ _ _ Hz Hz'), (hex_is_fun _ _ _ Hw Hw').
Qed.

Lemma json_read raw v : json_string raw v -> exists u, loose_string raw u /\ (u = v <-> simple_string raw v).
Proof.
  induction 1 as [|c l v Hc H34 H92 H (u & Hu & IH)|l v H (u & Hu & IH)|l v H (u & Hu & IH)|l v H (u & Hu & IH)|l v H (u & Hu & IH)|l v H (u & Hu & IH)
    |l v H (u & Hu & IH)|l v H (u & Hu & IH)|l v H (u & Hu & IH)|a b c d cp l v Hx Hs H (u & Hu & IH)|a b c d a' b' c' d' hi lo l v Hx Hy Hhi Hlo H (u & Hu & IH)].
  - exists []. split; [constructor|]. split; [constructor|done].
  - exists (c :: u). split; [by constructor|]. split; [intros [= E]; constructor; tauto|]. intros K. inversion K; subst; try done. f_equal. tauto.
  - exists (34 :: u). split; [by constructor|]. split; [intros [= E]; constructor; tauto|]. intros K. inversion K; subst; try done. f_equal. tauto.
  - exists (92 :: u). split; [by constructor|]. split; [intros [= E]; constructor; tauto|]. intros K. inversion K; subst; try done. f_equal. tauto.
  - exists (47 :: u). split; [by constructor|]. split; [intros [= E]; constructor; tauto|]. intros K. inversion K; subst; try done. f_equal. tauto.
  - exists (98 :: u). split; [by constructor|]. split; [done|]. intros K. inversion K; subst; done.
  - exists (102 :: u). split; [by constructor|]. split; [done|]. intros K. inversion K; subst; done.
  - exists (110 :: u). split; [by constructor|]. split; [done|]. intros K. inversion K; subst; done.
  - exists (114 :: u). split; [by constructor|]. split; [done|]. intros K. inversion K; subst; done.
  - exists (116 :: u). split; [by constructor|]. split; [done|]. intros K. inversion K; subst; done.
  - exists (utf8 cp ++ u). split; [pose proof (lo_uni a b c d cp l u Hx Hu) as K; by rewrite decide_False in K|].
    split; [intros E%app_inv_head; constructor; tauto|]. intros K. inversion K as [|c0 l0 v0 ? ? ?| | | |a0 b0 c0 d0 cp0 l0 v0 Hx0 Hs0 Hl0]; subst; try done.
    rewrite (hex4_is_fun _ _ _ _ _ _ Hx0 Hx) in *. match goal with E : _ ++ _ = _ ++ _ |- _ => apply app_inv_head in E; subst end. f_equal. tauto.
  - exists (utf8 65533 ++ utf8 65533 ++ u). split.
    + pose proof (lo_uni a' b' c' d' lo l u Hy Hu) as K. rewrite decide_True in K by (unfold surrogate; lia).
      apply (lo_uni a b c d hi) in K; [|done]. by rewrite decide_True in K by (unfold surrogate; lia).
    + split.
      * set (cp := 65536 + _ + _). assert (Hcp : 65536 <= cp <= 1114111) by (unfold cp; lia). clearbody cp. unfold utf8 at 1 3.
        replace (cp <? 128) with false by lia. replace (cp <? 2048) with false by lia. replace (cp <? 65536) with false by lia. cbn [app].
        intros [= E _]. exfalso. revert E. change (239 <> 240 + cp / 262144). pose proof (Z.div_pos cp 262144). lia.
      * intros K. inversion K as [| | | | |a0 b0 c0 d0 cp0 l0 v0 Hx0 Hs0 Hl0]; subst; try done.
        rewrite (hex4_is_fun _ _ _ _ _ _ Hx0 Hx) in Hs0. unfold surrogate in Hs0. lia.
Qed.

Lemma read_exact raw v w rest chunks e buf fuel : json_string raw v -> ws w -> concat chunks = w ++ 34 :: raw ++ 34 :: rest ->
  (length raw < length buf)%nat -> (5 <= length buf)%nat -> no_eager_error e -> (length chunks + length (concat chunks) < fuel)%nat ->
  ((exists st, ReadString fuel (new_parser (Src chunks e) buf) = POk (Token TString v) st) <-> simple_string raw v).
Proof.
  intros Hj Hw Hc Hl Hb He Hf. destruct (json_read raw v Hj) as (u & Hu & Hiff).
  destruct (read_string_loose raw u w rest chunks e buf fuel Hu Hw Hc Hl Hb He Hf) as (st & E & _). rewrite <- Hiff, E.
  split; [by intros (st' & [= ->])|]. intros ->. by exists st.
Qed.

(* ---------- C48 ---------- *)

Lemma rotated {A} (a b : list A) : NoDup (a ++ b) -> b ++ a = a ++ b -> a = [] \/ b = [].
Proof.
  intros Hn E. destruct a as [|x a]; [by left|]. destruct b as [|y b]; [by right|]. exfalso. cbn in E. injection E as -> _.
  apply (NoDup_app (x :: a)) in Hn as (_ & Hn & _). apply (Hn x); by left.
Qed.

Lemma ring_order_exact cap ts : (0 < cap)%nat -> NoDup (concat ts) -> Forall (fun s => s_id s <> 0) (concat ts) ->
  exists r, read_from (new_ring cap) ts = Some r /\
  (to_slice r = visible (lastn cap (concat ts)) <-> (length (concat ts) <= cap)%nat \/ (length (concat ts) mod cap = 0)%nat).
Proof.
  intros Hc Hnd Hid. destruct (ring_recent cap ts Hc) as (r & E & older & newer & El & Hn & Es). exists r. split; [done|].
  split; [|intros H; destruct (ring_in_order cap ts Hc H) as (r' & E' & Hs); rewrite E in E'; by injection E' as <-].
  assert (Hv : Forall (fun s => s_id s <> 0) (older ++ newer)). by (rewrite <- El; by apply Forall_drop).
  assert (Hnd' : NoDup (older ++ newer)) by (rewrite <- El; unfold lastn; rewrite <- (take_drop (length (concat ts) - cap) (concat ts)) in Hnd; by apply NoDup_app in Hnd as (_ & _ & ?)).
  assert (Hvis : forall l, Forall (fun s => s_id s <> 0) l -> visible l = l).
  { unfold visible. induction 1 as [|s l Hs _ IH]; [done|]. rewrite filter_cons_True by done. by rewrite IH. }
  rewrite Es, El, (Hvis (older ++ newer)) by done. apply Forall_app in Hv as [Hv1 Hv2]. rewrite (Hvis _ Hv1), (Hvis _ Hv2).
  intros [-> | ->]%rotated; [|right|done].
  - left. cbn [app] in El. pose proof (f_equal length El) as Hlen. unfold lastn in Hlen. rewrite drop_length, Hn in Hlen.
    pose proof (Nat.mod_upper_bound (length (concat ts)) cap). lia.
  - by rewrite <- Hn.
Qed.

(* ---------- C44 ---------- *)

Lemma run_closed evs st log more : run evs = (Some st, log) -> run (evs ++ EClose :: more) = (None, log ++ [LClose]).
Proof.
  intros E. unfold run in *. rewrite foldl_app, E. cbn [foldl fst snd step]. generalize (log ++ [LClose]). intros l.
  induction more as [|e more IH]; cbn [foldl fst snd step]; [done|]. by rewrite app_nil_r.
Qed.

Lemma pending_exact log t i n0 n1 s : pending log t !! i = Some (n0, n1, s) <->
  exists l1 l2, log = l1 ++ LSpan n0 n1 s :: l2 /\ s_trace s = t /\ t <> 0 /\ s_id s <> 0 /\ ~ blacklisted l1 t /\
    (forall o, LOut t o ∉ l2) /\ length (pending l1 t) = i.
Proof.
  split.
  - revert i n0 n1 s. unfold pending. induction log as [|e log IH] using rev_ind; intros i n0 n1 s; [done|]. rewrite status_snoc.
    assert (Hold : (status log t).2 !! i = Some (n0, n1, s) -> (forall o, e <> LOut t o) -> exists l1 l2, log ++ [e] = l1 ++ LSpan n0 n1 s :: l2 /\
      s_trace s = t /\ t <> 0 /\ s_id s <> 0 /\ ~ blacklisted l1 t /\ (forall o, LOut t o ∉ l2) /\ length (status l1 t).2 = i).
    { intros H He. destruct (IH _ _ _ _ H) as (l1 & l2 & -> & ? & ? & ? & ? & Hno & ?). exists l1, (l2 ++ [e]). repeat (split; [done || by rewrite <- app_assoc|]).
      split; [|done]. intros o [Ho | Ho%elem_of_list_singleton]%elem_of_app; [by apply (Hno o)|by apply (He o)]. }
    destruct (status log t) as [b p] eqn:Es. destruct e as [m0 m1 s'| | | |]; cbn [track]; try (case_decide; cbn [snd]); cbn [snd] in *; try (by intros H; apply Hold).
    + unfold addition in *. destruct (decide (i = length p)) as [->|Hne].
      * rewrite list_lookup_middle by done. intros [= -> -> ->]. exists log, []. destruct H as (? & ? & ? & ?). unfold blacklisted. rewrite Es.
        repeat (split; [done|]). split; [by subst b|]. split; [|done]. intros o Ho. by apply elem_of_nil in Ho.
      * intros Hl. pose proof (lookup_lt_Some _ _ _ Hl) as Hlt. rewrite app_length in Hlt. cbn in Hlt. rewrite lookup_app_l in Hl by lia. by apply Hold.
    + intros Hl. apply Hold; [done|congruence].
    + done.
    + intros Hl. apply Hold; [done|congruence].
    + intros Hl. apply Hold; [done|congruence].
    + intros Hl. apply Hold; [done|congruence].
  - intros (l1 & l2 & -> & <- & Ht & Hi & Hb & Hno & <-). unfold pending. rewrite status_app. cbn [foldl]. unfold blacklisted in Hb.
    destruct (status l1 (s_trace s)) as [b p]. cbn [track fst snd] in *. rewrite decide_True by (by destruct b).
    destruct (pending_stays l2 (s_trace s) Hno (b, p ++ [(n0, n1, s)])) as [more ->]. cbn [snd].
    unfold addition in *. rewrite <- app_assoc. cbn [app]. by apply list_lookup_middle.
Qed.

Lemma close_exact evs st log more : run evs = (Some st, log) ->
  run (evs ++ EClose :: more) = (None, log ++ [LClose]) /\
  forall t i n0 n1 s, pending log t !! i = Some (n0, n1, s) <->
    exists l1 l2, log = l1 ++ LSpan n0 n1 s :: l2 /\ s_trace s = t /\ t <> 0 /\ s_id s <> 0 /\ ~ blacklisted l1 t /\
      (forall o, LOut t o ∉ l2) /\ length (pending l1 t) = i.
Proof. intros E. split; [by apply (run_closed _ st)|]. intros. apply pending_exact. Qed.

(* ---------- C51 ---------- *)

Lemma closed_sends more : forall st, k_open st = false -> Forall (fun e => exists t, e = XSend t) (drun_from st more).2.
Proof.
  induction more as [|e more IH]; intros st Ho; cbn [drun_from]; [by apply Forall_nil_2|].
  assert (H : k_open (dstep e st).1 = false /\ Forall (fun e => exists t, e = XSend t) (dstep e st).2).
  { destruct e; cbn [dstep]; rewrite ?Ho; try (split; [done|by apply Forall_nil_2]).
    destruct (k_queue st) as [|b q]; [split; [done|by apply Forall_nil_2]|]. cbn [fst snd k_open]. split; [done|].
    destruct (map _ (ord b)); [by apply Forall_nil_2|]. apply Forall_cons_2; [by eexists|by apply Forall_nil_2]. }
  destruct (dstep e st) as [st1 l1]. cbn [fst snd] in H. destruct H as [Ho1 H1]. specialize (IH st1 Ho1).
  destruct (drun_from st1 more) as [st2 l2]. cbn [snd] in *. by apply Forall_app.
Qed.

Lemma sends_only l : Forall (fun e => exists t, e = XSend t) l -> forall log,
  received (log ++ l) = received log /\ flushes (log ++ l) = flushes log /\ buffered (log ++ l) = buffered log /\ accepted (log ++ l) = accepted log.
Proof.
  induction 1 as [|e l (t & ->) _ IH]; intros log; [by rewrite app_nil_r|]. replace (log ++ XSend t :: l) with ((log ++ [XSend t]) ++ l) by (by rewrite <- app_assoc).
  destruct (IH (log ++ [XSend t])) as (-> & -> & -> & ->). unfold received, flushes, accepted, buffered. rewrite !map_app, !concat_app, foldl_app. cbn.
  by rewrite !app_nil_r.
Qed.

Lemma close_buffer evs st log more : Forall valid_devent evs -> drun evs = (st, log) ->
  exists st' log' chunks, drun (evs ++ DClose :: more) = (st', log') /\ received log' = received log /\ received log' = concat chunks ++ buffered log /\
    Forall2 grouped chunks (flushes log') /\ accepted log' = accepted log /\ Z.of_nat (length (buffered log)) < 1000.
Proof.
  intros Hv E. destruct (conservation evs st log Hv E) as (chunks & Hrec & Hg). pose proof (buffered_small evs st log Hv E) as Hs.
  unfold drun in *. rewrite drun_from_app, E. cbn [drun_from]. destruct (dstep DClose st) as [st1 l1] eqn:E1.
  assert (H : k_open st1 = false /\ (l1 = [] \/ l1 = [XClose])) by (cbn [dstep] in E1; destruct (k_open st) eqn:Eo; injection E1 as <- <-; auto).
  destruct H as [Ho Hl]. pose proof (closed_sends more st1 Ho) as Hm. destruct (drun_from st1 more) as [st2 l2]. cbn [snd] in Hm.
  destruct (sends_only l2 Hm (log ++ l1)) as (Hr & Hf & Hbu & Ha). exists st2, (log ++ l1 ++ l2), chunks. rewrite !app_assoc. rewrite Hr, Hf, Ha.
  assert (H1 : received (log ++ l1) = received log /\ flushes (log ++ l1) = flushes log /\ accepted (log ++ l1) = accepted log).
  { destruct Hl as [-> | ->]; [by rewrite app_nil_r|]. unfold received, flushes, accepted. rewrite !map_app, !concat_app. cbn. by rewrite !app_nil_r. }
  destruct H1 as (-> & -> & ->). repeat (split; [done|]). by destruct Hs.
Qed.
