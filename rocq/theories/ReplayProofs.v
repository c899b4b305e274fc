(** Redelivery of spans does not change a trace. *)
From Coq Require Import Sorted.
From stdpp Require Import sorting.
From Verif Require Import Base IdModel SpanModel TreeModel TreeSpec TreeProofs FinishModel FinishSpec FinishTheorems FinishWitness ReplaySpec.

(* ---------- redelivery ---------- *)

Lemma delivered_map {A B} (f : A -> B) log n l : delivered log n l -> delivered (map f log) n (map f l).
Proof.
  intros H. induction H as [|n l x H IH E|n o l H IH E].
  - constructor.
  - rewrite map_app. cbn [map]. apply delivered_next; [done|]. change (map f log) with (f <$> log). by rewrite list_lookup_fmap, E.
  - by eapply delivered_again.
Qed.

Lemma delivered_len {A} (log : list A) n l : delivered log n l -> (n <= length log)%nat.
Proof.
  intros H. induction H as [|n l x H IH E|n o l H IH E]; [lia| |lia].
  by apply lookup_lt_Some in E.
Qed.

Lemma take_S_filter {A} (p : A -> bool) log n x : log !! n = Some x ->
  List.filter p (take (S n) log) = List.filter p (take n log) ++ (if p x then [x] else []).
Proof. intros E. rewrite (take_S_r _ _ x E), List.filter_app. cbn. by destruct (p x). Qed.

Lemma delivered_filter {A} (p : A -> bool) log n l : delivered log n l ->
  delivered (List.filter p log) (length (List.filter p (take n log))) (List.filter p l).
Proof.
  intros H. induction H as [|n l x H IH E|n o l H IH E].
  - rewrite take_0. constructor.
  - rewrite (take_S_filter p _ _ _ E), !List.filter_app, app_length. cbn [List.filter].
    destruct (p x) eqn:Ep; cbn [length].
    + rewrite Nat.add_1_r. apply delivered_next; [done|].
      assert (F : List.filter p log = List.filter p (take n log) ++ x :: List.filter p (drop (S n) log)).
      { rewrite <- (take_drop_middle _ _ _ E) at 1. rewrite List.filter_app. cbn [List.filter]. by rewrite Ep. }
      rewrite F. by apply list_lookup_middle.
    + by rewrite Nat.add_0_r, app_nil_r.
  - eapply delivered_again; [exact IH|]. 
    replace (take o log) with (take o (take n log)) by (rewrite take_take; f_equal; lia).
    rewrite <- (take_drop o (take n log)) at 2. rewrite List.filter_app, app_length. lia.
Qed.

Lemma read_whole_filter {A} (p : A -> bool) (log l : list A) : read_whole log l -> read_whole (List.filter p log) (List.filter p l).
Proof. intros H. apply (delivered_filter p) in H. by rewrite firstn_all in H. Qed.

Lemma delivered_head {A} (log : list A) n l : delivered log n l ->
  match l with [] => n = 0%nat | x :: _ => head log = Some x end.
Proof.
  intros H. induction H as [|n l x H IH E|n o l H IH E].
  - done.
  - destruct l; cbn [app]; [|done]. rewrite IH in E. by destruct log.
  - destruct l; [lia|done].
Qed.

(* ---------- one attribute of a span ---------- *)

Inductive act (V : Type) := Keep | Put (v : V) | Fill (v : V).
Arguments Keep {V}. Arguments Put {V} v. Arguments Fill {V} v.

Section attribute.
  Context {V : Type} `{EqDecision V} (e : V).
  Definition apply_act (a : act V) (x : V) : V :=
    match a with Keep => x | Put v => v | Fill v => if decide (x = e) then v else x end.
  Definition proper_act (a : act V) : Prop := match a with Keep => True | Put v | Fill v => v <> e end.
  Definition run_acts (l : list (act V)) (x : V) : V := foldl (fun x a => apply_act a x) x l.

  Lemma run_acts_app l1 l2 x : run_acts (l1 ++ l2) x = run_acts l2 (run_acts l1 x).
  Proof. apply foldl_app. Qed.
  Lemma run_acts_keep l x : Forall (eq Keep) l -> run_acts l x = x.
  Proof. intros H. induction H as [|a l <- _ IH]; [done|]. exact IH. Qed.
  Lemma apply_act_twice a x : proper_act a -> apply_act a (apply_act a x) = apply_act a x.
  Proof. destruct a; cbn; [done|done|]. intros H. by destruct (decide (x = e)); repeat destruct (decide _). Qed.

  (** A value that is not empty only changes to the last value put. *)
  Fixpoint last_put (l : list (act V)) : option V :=
    match l with [] => None | a :: l' => match last_put l' with Some v => Some v | None => match a with Put v => Some v | _ => None end end end.
  Lemma run_nonempty l x : Forall proper_act l -> x <> e -> run_acts l x = match last_put l with Some v => v | None => x end.
  Proof.
    intros Hl. revert x. induction Hl as [|a l Ha Hl IH]; intros x Hx; [done|].
    cbn [run_acts foldl last_put]. change (foldl _ ?x l) with (run_acts l x). rewrite IH.
    - destruct (last_put l); [done|]. destruct a; cbn; [done|done|]. by rewrite decide_False.
    - destruct a; cbn; [done|done|]. by rewrite decide_False.
  Qed.
  Lemma last_put_app l1 l2 : last_put (l1 ++ l2) = match last_put l2 with Some v => Some v | None => last_put l1 end.
  Proof.
    induction l1 as [|a l1 IH]; cbn; [by destruct (last_put l2)|]. rewrite IH. by destruct (last_put l2).
  Qed.

  Lemma replay_attr (log : list (act V)) n l x0 : Forall proper_act log -> delivered log n l ->
    (run_acts l x0 = e -> Forall (eq Keep) (take n log)) /\
    (forall o, (o <= n)%nat -> run_acts (drop o log) (run_acts l x0) = run_acts log x0).
  Proof.
    intros Hp H. induction H as [|n l a H [J I] E|n m l H [J I] Hm].
    - split; [intros _; rewrite take_0; constructor|]. intros o Ho. by replace o with 0%nat by lia.
    - rewrite run_acts_app. cbn [run_acts foldl]. change (foldl _ x0 l) with (run_acts l x0).
      assert (Ha : proper_act a) by (rewrite Forall_forall in Hp; apply Hp; by eapply elem_of_list_lookup_2).
      set (x := run_acts l x0) in *. split.
      + intros Ex. assert (a = Keep /\ x = e) as [-> Hx].
        { destruct a; cbn in *; [done|done|]. destruct (decide (x = e)); done. }
        rewrite (take_S_r _ _ _ E). apply Forall_app. split; [by apply J|]. by apply Forall_singleton.
      + intros o Ho. destruct (decide (o = S n)) as [->|].
        { rewrite <- (I n ltac:(lia)). rewrite (drop_S _ _ _ E). done. }
        rewrite <- (I n ltac:(lia)). destruct (decide (x = e)) as [Ex|Nx].
        * specialize (J Ex). assert (Ed : drop o log = drop o (take n log) ++ drop n log).
          { rewrite <- (take_drop n log) at 1. apply drop_app_le. rewrite take_length. apply lookup_lt_Some in E. lia. }
          rewrite Ed, run_acts_app, (run_acts_keep (drop o _)) by (by apply Forall_drop).
          rewrite (drop_S _ _ _ E). cbn [run_acts foldl]. by rewrite apply_act_twice.
        * assert (Nx' : apply_act a x <> e) by (destruct a; cbn; [done|done|]; by rewrite decide_False).
          assert (Hd : forall k, Forall proper_act (drop k log)) by (intros; by apply Forall_drop).
          rewrite (run_nonempty (drop o log)), (run_nonempty (drop n log)) by done.
          assert (Ed : last_put (drop o log) = match last_put (drop n log) with Some v => Some v | None => last_put (drop o (take n log)) end).
          { rewrite <- last_put_app. f_equal. rewrite <- (take_drop n log) at 1. apply drop_app_le. rewrite take_length. apply lookup_lt_Some in E. lia. }
          destruct (last_put (drop n log)) eqn:El; rewrite Ed; [done|].
          (* no put from n on *)
          assert (a = Keep \/ exists v, a = Fill v) as Hk.
          { rewrite (drop_S _ _ _ E) in El. cbn [last_put] in El. destruct (last_put (drop (S n) log)); [done|]. destruct a; eauto; done. }
          assert (apply_act a x = x) as ->. { destruct Hk as [->|[v ->]]; [done|]. cbn. by rewrite decide_False. }
          pose proof (I o ltac:(lia)) as Io. pose proof (I n ltac:(lia)) as In.
          rewrite (run_nonempty (drop o log)) in Io by done. rewrite (run_nonempty (drop n log)) in In by done.
          rewrite Ed in Io. rewrite El in In. congruence.
    - split.
      + intros Ex. specialize (J Ex). replace (take m log) with (take m (take n log)) by (rewrite take_take; f_equal; lia). by apply Forall_take.
      + intros o Ho. apply I. lia.
  Qed.

  Lemma replay_attr_whole (log l : list (act V)) x0 : Forall proper_act log -> read_whole log l -> run_acts l x0 = run_acts log x0.
  Proof.
    intros Hp H. destruct (replay_attr _ _ _ x0 Hp H) as [_ I]. rewrite <- (I (length log)) by lia. by rewrite drop_all.
  Qed.
End attribute.
Arguments last_put {V}.

(* ---------- one span ---------- *)

(** The updates of one id. *)
Definition updates (l : list span) (s : span) : span := foldl updated_span s l.

(** An attribute that every update treats in one of the three ways. *)
Lemma attr_fold {V} `{EqDecision V} (e : V) (attr : span -> V) (how : span -> act V) :
  (forall s new, attr (updated_span s new) = apply_act e (how new) (attr s)) ->
  forall l s, attr (updates l s) = run_acts e (map how l) (attr s).
Proof.
  intros H l. induction l as [|n l IH]; intros s; [done|]. cbn [updates foldl map run_acts].
  change (foldl updated_span ?x l) with (updates l x). rewrite IH, H. done.
Qed.

Lemma attr_replay {V} `{EqDecision V} (e : V) (attr : span -> V) (how : span -> act V) :
  (forall s new, attr (updated_span s new) = apply_act e (how new) (attr s)) -> (forall s, proper_act e (how s)) ->
  forall log l s, read_whole log l -> attr (updates l s) = attr (updates log s).
Proof.
  intros H Hp log l s Hr. rewrite !(attr_fold e attr how H). apply replay_attr_whole.
  - apply Forall_forall. intros a Ha. apply elem_of_list_fmap in Ha as (x & -> & _). apply Hp.
  - apply (delivered_map how) in Hr. unfold read_whole. by rewrite map_length.
Qed.

Definition how_string (from_srv : bool) (v : gostring) : act gostring :=
  if decide (v = []) then Keep else if from_srv then Put v else Fill v.
Definition how_option (from_srv : bool) (v : option gostring) : act (option gostring) :=
  match v with None => Keep | Some _ => if from_srv then Put v else Fill v end.
Definition how_time (b : bool) (v : Z) : act Z := if b && (0 <? v) then Put v else Keep.

Lemma updates_replay log l s : read_whole log l -> updates l s = updates log s.
Proof.
  intros Hr.
  assert (Hst : forall (attr : span -> gostring),
    (forall s new, attr (updated_span s new) = if decide (from_server new) then first_nonempty (attr new) (attr s) else first_nonempty (attr s) (attr new)) ->
    attr (updates l s) = attr (updates log s)).
  { intros attr H. apply (attr_replay [] attr (fun new => how_string (bool_decide (from_server new)) (attr new))); [| |done].
    - intros x new. rewrite H. unfold how_string, first_nonempty. case_bool_decide; [rewrite decide_True by done|rewrite decide_False by done];
        destruct (decide (attr new = [])) as [E|E]; cbn [apply_act]; try done; destruct (decide (attr x = [])); cbn; try (by destruct (decide (attr x = []))); congruence.
    - intros x. unfold how_string. destruct (decide (attr x = [])); [done|]. by destruct (bool_decide _). }
  assert (Hti : forall (attr : span -> Z) (b : span -> bool) (v : span -> Z),
    (forall s new, attr (updated_span s new) = if b new && (0 <? v new) then v new else attr s) ->
    attr (updates l s) = attr (updates log s)).
  { intros attr b v H. apply (attr_replay 0 attr (fun new => how_time (b new) (v new))); [| |done].
    - intros x new. rewrite H. unfold how_time. by destruct (_ && _).
    - intros x. unfold how_time. destruct (b x); cbn; [|done]. destruct (Z.ltb_spec 0 (v x)); cbn; [lia|done]. }
  assert (Hke : forall (attr : span -> Z), (forall s new, attr (updated_span s new) = attr s) -> attr (updates l s) = attr (updates log s)).
  { intros attr H. apply (attr_replay 0 attr (fun _ => Keep)); done. }
  assert (Hpa : s_parent (updates l s) = s_parent (updates log s)).
  { apply (attr_replay 0 s_parent (fun new => if decide (s_parent new = 0) then Keep else Fill (s_parent new))); [| |done].
    - intros x new. unfold updated_span. assert (forall y, s_parent (merged y new) = s_parent y) as -> by (intros; unfold merged; by destruct (decide _)).
      destruct (Z.eqb_spec (s_parent x) 0) as [E|E]; destruct (decide (s_parent new = 0)) as [E'|E']; cbn; rewrite ?decide_True, ?decide_False by done; cbn; congruence.
    - intros x. by destruct (decide _). }
  assert (Htg : s_tags (updates l s) = s_tags (updates log s)).
  { apply map_eq. intros k.
    apply (attr_replay None (fun x => s_tags x !! k) (fun new => how_option (bool_decide (from_server new)) (s_tags new !! k))); [| |done].
    - intros x new. unfold updated_span. assert (forall c : bool, s_tags (if c then set_parent (s_parent new) x else x) = s_tags x) as Et by (by intros []).
      unfold merged. case_bool_decide as Ef; [rewrite decide_True by done|rewrite decide_False by done]; cbn [s_tags]; rewrite Et, lookup_union;
        destruct (s_tags x !! k), (s_tags new !! k); done.
    - intros x. unfold how_option. destruct (s_tags x !! k); [|done]. by destruct (bool_decide _). }
  assert (Hnm : s_name (updates l s) = s_name (updates log s)).
  { apply Hst. intros x new. unfold updated_span, merged. destruct (decide _); cbn [s_name]; by destruct (_ =? 0). }
  assert (Hsv : s_service (updates l s) = s_service (updates log s)).
  { apply Hst. intros x new. unfold updated_span, merged. destruct (decide _); cbn [s_service]; by destruct (_ =? 0). }
  assert (Hid : s_id (updates l s) = s_id (updates log s)) by (apply Hke; intros; apply updated_id).
  assert (Htr : s_trace (updates l s) = s_trace (updates log s)).
  { apply Hke. intros x new. unfold updated_span, merged. destruct (decide _); cbn [s_trace]; by destruct (_ =? 0). }
  assert (Hts : s_ts (updates l s) = s_ts (updates log s)).
  { apply Hke. intros x new. unfold updated_span, merged. destruct (decide _); cbn [s_ts]; by destruct (_ =? 0). }
  assert (Hdu : s_dur (updates l s) = s_dur (updates log s)).
  { apply Hke. intros x new. unfold updated_span, merged. destruct (decide _); cbn [s_dur]; by destruct (_ =? 0). }
  assert (H1 : tCS (s_timings (updates l s)) = tCS (s_timings (updates log s))).
  { apply (Hti (fun x => tCS (s_timings x)) (fun n => negb (bool_decide (from_server n))) (fun n => tCS (s_timings n))). intros x new.
    unfold updated_span, merged. case_bool_decide; [rewrite decide_True by done|rewrite decide_False by done]; cbn [s_timings tCS negb andb]; by destruct (s_parent x =? 0). }
  assert (H2 : tCR (s_timings (updates l s)) = tCR (s_timings (updates log s))).
  { apply (Hti (fun x => tCR (s_timings x)) (fun n => negb (bool_decide (from_server n))) (fun n => tCR (s_timings n))). intros x new.
    unfold updated_span, merged. case_bool_decide; [rewrite decide_True by done|rewrite decide_False by done]; cbn [s_timings tCR negb andb]; by destruct (s_parent x =? 0). }
  assert (H3 : tSS (s_timings (updates l s)) = tSS (s_timings (updates log s))).
  { apply (Hti (fun x => tSS (s_timings x)) (fun n => bool_decide (from_server n)) (fun n => tSS (s_timings n))). intros x new.
    unfold updated_span, merged. case_bool_decide; [rewrite decide_True by done|rewrite decide_False by done]; cbn [s_timings tSS negb andb]; by destruct (s_parent x =? 0). }
  assert (H4 : tSR (s_timings (updates l s)) = tSR (s_timings (updates log s))).
  { apply (Hti (fun x => tSR (s_timings x)) (fun n => bool_decide (from_server n)) (fun n => tSR (s_timings n))). intros x new.
    unfold updated_span, merged. case_bool_decide; [rewrite decide_True by done|rewrite decide_False by done]; cbn [s_timings tSR negb andb]; by destruct (s_parent x =? 0). }
  destruct (updates l s) as [i1 p1 t1 n1 v1 ts1 d1 g1 [a1 b1 c1 e1]], (updates log s) as [i2 p2 t2 n2 v2 ts2 d2 g2 [a2 b2 c2 e2]].
  cbn [s_id s_parent s_trace s_name s_service s_ts s_dur s_tags s_timings tCS tCR tSS tSR] in *. congruence.
Qed.

(** Updating a span with itself changes nothing. *)
Lemma updated_self s : updated_span s s = s.
Proof.
  destruct s as [i p t n v ts d g [a b c e]]. unfold updated_span, merged, first_nonempty, set_parent. cbn [s_id s_parent s_trace s_name s_service s_ts s_dur s_tags s_timings tCS tCR tSS tSR].
  destruct (p =? 0); cbn [s_id s_parent s_trace s_name s_service s_ts s_dur s_tags s_timings tCS tCR tSS tSR];
  destruct (decide (from_server _)); cbn [s_id s_parent s_trace s_name s_service s_ts s_dur s_tags s_timings tCS tCR tSS tSR];
  rewrite (idemp_L (∪)); destruct (decide (n = [])), (decide (v = [])), (0 <? a), (0 <? b), (0 <? c), (0 <? e); by subst.
Qed.

(* ---------- the tree ---------- *)

Definition held (id : Z) (spans : list span) : option span := List.find (fun s => s_id s =? id) spans.

Lemma held_In id spans s : descending (ids spans) -> (held id spans = Some s <-> s ∈ spans /\ s_id s = id).
Proof.
  intros Hd. split.
  - intros H. apply find_some in H as [H1 H2]. rewrite elem_of_list_In. split; [done|lia].
  - intros [H1 H2]. destruct (held id spans) as [x|] eqn:E.
    + apply find_some in E as [E1 E2]. f_equal. apply (sorted_unique spans); [done|by apply elem_of_list_In|done|lia].
    + apply elem_of_list_In in H1. apply (find_none _ _ E) in H1. lia.
Qed.

Definition held_next (id : Z) (x : option span) (new : span) : option span :=
  if s_id new =? id then Some (match x with None => new | Some s => updated_span s new end) else x.

Lemma held_add ord now new t id : map_order ord -> descending (ids (t_spans t)) ->
  held id (t_spans (add_span ord now new t)) = held_next id (held id (t_spans t)) new.
Proof.
  intros Ho Hd. unfold held_next.
  destruct (add_span_cases ord now new t Ho Hd) as [(l1 & l2 & E1 & Hn & E2 & Hd2)|(l1 & s & l2 & E1 & Hid & E2 & E3)]; rewrite E2; cbn [t_spans].
  - destruct (Z.eqb_spec (s_id new) id) as [<-|E].
    + assert (held (s_id new) (t_spans t) = None) as ->.
      { destruct (held _ _) as [x|] eqn:Eh; [|done]. apply held_In in Eh as [H1 H2]; [|done]. exfalso. apply Hn. rewrite <- H2. by apply elem_of_list_fmap_1. }
      apply held_In; [done|]. split; [|done]. apply elem_of_app. right. apply elem_of_list_here.
    + rewrite E1. unfold held. clear -E. induction l1 as [|x l1 IH]; cbn; [by rewrite (proj2 (Z.eqb_neq _ _) E)|]. by destruct (s_id x =? id).
  - assert (Hd' : descending (ids (l1 ++ updated_span s new :: l2))) by (by rewrite E3).
    destruct (Z.eqb_spec (s_id new) id) as [<-|E].
    + assert (held (s_id new) (t_spans t) = Some s) as ->.
      { apply held_In; [done|]. split; [|done]. rewrite E1. apply elem_of_app. right. apply elem_of_list_here. }
      apply held_In; [done|]. rewrite updated_id. split; [|done]. apply elem_of_app. right. apply elem_of_list_here.
    + rewrite E1. unfold held. rewrite <- Hid in E. clear -E. induction l1 as [|x l1 IH]; cbn.
      * rewrite updated_id. by rewrite (proj2 (Z.eqb_neq _ _) E).
      * by destruct (s_id x =? id).
Qed.

Lemma held_add_all ord id adds : map_order ord -> forall t, descending (ids (t_spans t)) -> count_ok t ->
  held id (t_spans (add_all ord adds t)) = foldl (held_next id) (held id (t_spans t)) (map snd adds).
Proof.
  intros Ho. induction adds as [|a adds IH]; intros t Hd Hc; [done|]. cbn [map foldl].
  change (add_all ord (a :: adds) t) with (add_all ord adds (add_span ord a.1 a.2 t)).
  destruct (add_span_inv ord a.1 a.2 t Ho Hd Hc) as (A1 & A2 & _). rewrite (IH _ A1 A2). by rewrite held_add.
Qed.

Lemma held_next_filter id l x : foldl (held_next id) x l = foldl (held_next id) x (List.filter (fun s => s_id s =? id) l).
Proof.
  revert x. induction l as [|s l IH]; intros x; [done|]. cbn [foldl List.filter]. unfold held_next at 2.
  destruct (s_id s =? id) eqn:E; cbn [foldl]; [|apply IH]. unfold held_next at 3. rewrite E. apply IH.
Qed.

Lemma held_next_same id l s : Forall (fun s => s_id s = id) l -> foldl (held_next id) (Some s) l = Some (updates l s).
Proof.
  intros H. revert s. induction H as [|a l Ha Hl IH]; intros s; [done|]. cbn [foldl updates].
  unfold held_next at 2. rewrite Ha, Z.eqb_refl. apply IH.
Qed.

Lemma held_replay id log l x : read_whole log l -> foldl (held_next id) x l = foldl (held_next id) x log.
Proof.
  intros Hr. rewrite (held_next_filter id l), (held_next_filter id log).
  apply (read_whole_filter (fun s => s_id s =? id)) in Hr.
  assert (Hf : forall k, Forall (fun s => s_id s = id) (List.filter (fun s => s_id s =? id) k)).
  { intros k. apply Forall_forall. intros y Hy. apply elem_of_list_In, filter_In in Hy as [_ Hy]. lia. }
  pose proof (Hf l) as Fl. pose proof (Hf log) as Fg.
  set (l' := List.filter _ l) in *. set (log' := List.filter _ log) in *. clearbody l' log'. destruct x as [s|].
  - rewrite !held_next_same by done. f_equal. by apply updates_replay.
  - pose proof (delivered_head _ _ _ Hr) as Hh. destruct l' as [|a l'].
    { by apply nil_length_inv in Hh as ->. }
    destruct log' as [|b log']; [done|]. injection Hh as ->.
    assert (Hone : forall k, Forall (fun s => s_id s = id) (a :: k) -> foldl (held_next id) None (a :: k) = Some (updates (a :: k) a)).
    { intros k Hk. cbn [foldl updates]. unfold held_next at 2. apply Forall_cons in Hk as [Ha Hk]. rewrite Ha, Z.eqb_refl, updated_self.
      by apply held_next_same. }
    rewrite !Hone by done. f_equal. by apply updates_replay.
Qed.

Lemma spans_ext (a b : list span) : descending (ids a) -> descending (ids b) -> (forall id, held id a = held id b) -> a = b.
Proof.
  intros Ha Hb H.
  assert (AntiSymm (=) (fun x y : span => s_id y < s_id x)) by (intros x y H1 H2; lia).
  assert (S : forall l, descending (ids l) -> StronglySorted (fun x y => s_id y < s_id x) l).
  { intros l. induction l as [|x l IH]; intros Hl; [constructor|]. apply StronglySorted_inv in Hl as [Hl Hx]. constructor; [by apply IH|].
    apply Forall_forall. intros y Hy. change (Forall (fun b => b < s_id x) (ids l)) in Hx. rewrite Forall_forall in Hx. apply Hx. by apply elem_of_list_fmap_1. }
  assert (N : forall l, descending (ids l) -> NoDup l).
  { intros l Hl. apply S in Hl. clear -Hl. induction Hl as [|x l Hl IH Hx]; constructor; [|done]. intros Hin. rewrite Forall_forall in Hx. specialize (Hx _ Hin). lia. }
  apply (StronglySorted_unique (fun x y => s_id y < s_id x)); [by apply S|by apply S|].
  apply NoDup_Permutation; [by apply N|by apply N|]. intros x.
    pose proof (held_In (s_id x) a x Ha) as A. pose proof (held_In (s_id x) b x Hb) as B. rewrite H in A. tauto.
Qed.

(** The trace after a log that was partly delivered several times is the trace after the log. *)
Lemma replay_tree ord now tr pre adds adds' : map_order ord -> read_whole (map snd adds') (map snd adds) ->
  let t := add_all ord (pre ++ adds) (new_tree now tr) in
  let t' := add_all ord (pre ++ adds') (new_tree now tr) in
  t_spans t = t_spans t' /\ t_count t = t_count t' /\ t_id t = t_id t' /\ t_started t = t_started t'.
Proof.
  intros Ho Hr t t'. destruct (new_tree_ok now tr) as [N1 N2].
  destruct (add_all_inv ord (pre ++ adds) Ho _ N1 N2) as (A1 & A2 & A3 & A4 & _).
  destruct (add_all_inv ord (pre ++ adds') Ho _ N1 N2) as (B1 & B2 & B3 & B4 & _).
  assert (E : t_spans t = t_spans t').
  { apply spans_ext; [done|done|]. intros id. unfold t, t'. rewrite !held_add_all by done. rewrite !map_app, !foldl_app. by apply held_replay. }
  split; [done|]. unfold count_ok in *. fold t in A2, A3, A4. fold t' in B2, B3, B4. rewrite A2, B2, E, A3, B3, A4, B4. done.
Qed.

Lemma again_read {A} (a b c : list A) : read_whole (a ++ b ++ c) (a ++ b ++ b ++ c).
Proof.
  assert (F : forall (log l0 l rest : list A) n, delivered log n l0 -> drop n log = l ++ rest -> delivered log (n + length l) (l0 ++ l)).
  { intros log l0 l. revert l0. induction l as [|x l IH]; intros l0 rest n Hd Hn.
    - by rewrite Nat.add_0_r, app_nil_r.
    - cbn [length]. rewrite <- Nat.add_succ_comm. replace (l0 ++ x :: l) with ((l0 ++ [x]) ++ l) by (by rewrite <- app_assoc).
      assert (Hx : log !! n = Some x) by (rewrite <- (Nat.add_0_r n), <- lookup_drop, Hn; done).
      apply (IH _ rest); [by apply delivered_next|]. rewrite (drop_S _ _ _ Hx) in Hn. by injection Hn. }
  unfold read_whole. pose proof (F (a ++ b ++ c) [] (a ++ b) c 0%nat (delivered_start _)) as F1. cbn [drop app] in F1.
  rewrite <- app_assoc in F1. specialize (F1 eq_refl). rewrite app_length in F1.
  apply (delivered_again _ _ (length a)) in F1; [|lia].
  pose proof (F _ _ (b ++ c) [] _ F1) as F2. rewrite drop_app, app_nil_r in F2. specialize (F2 eq_refl).
  rewrite !app_length in *. rewrite <- app_assoc in F2. done.
Qed.

(** An emitted trace is the one of the log, however often parts of it were delivered. *)
Lemma replay_emitted evs l1 t out l2 log : Forall valid_event evs -> (run evs).2 = l1 ++ LOut t (Emitted out) :: l2 ->
  read_whole log (map snd (pending l1 t)) ->
  emission t (merged_spans t (map (fun s => (0, 0, s)) log)) out.
Proof.
  intros Hv Hr Hl. destruct (emitted_is _ _ _ _ _ Hv Hr) as [_ He]. revert He. unfold merged_spans.
  assert (map_order map_to_list) as Ho by (intros m; reflexivity).
  pose proof (replay_tree map_to_list 0 t [] (map (fun a => (a.1.2, a.2)) (pending l1 t)) (map (fun a => (a.1.2, a.2)) (map (fun s => (0, 0, s)) log)) Ho) as Ht.
  cbn [app] in Ht. rewrite !map_map in Ht. cbn [snd] in Ht. rewrite map_id in Ht. rewrite map_map. cbn [fst snd].
  destruct Ht as [Ht _]; [|by rewrite Ht]. exact Hl.
Qed.

Lemma replay_split :
  exists evs t (l1 l2 l3 : list entry) s, Forall valid_event evs /\
    (run evs).2 = l1 ++ LOut t (Emitted [s]) :: l2 ++ LOut t (Emitted [s]) :: l3 /\
    read_whole [s] (omap (fun e => match e with ESpan _ _ _ s => Some s | _ => None end) evs).
Proof.
  set (s := Span 5 0 9 [] [] 1600000000000000000 10 ∅ (Timings 0 0 0 0)).
  exists [ESpan map_to_list 0 0 s; ETick (plain_tick (seconds 9)); ESpan map_to_list (seconds 10) (seconds 10) s; ETick (plain_tick (seconds 19))], 9,
    [LSpan 0 0 s; LTick (seconds 9) (seconds 9) 1], [LSpan (seconds 10) (seconds 10) s; LTick (seconds 19) (seconds 19) 1], [], s.
  assert (Hs : valid_event (ESpan map_to_list 0 0 s)) by (split; [intros m; reflexivity|cbn; unfold int64_ok; p2; lia]).
  split; [|split].
  - constructor; [done|]. constructor; [apply plain_valid|]. constructor; [done|]. constructor; [apply plain_valid|constructor].
  - by vm_compute.
  - change (read_whole ([] ++ [s] ++ []) ([] ++ [s] ++ [s] ++ [])). apply again_read.
Qed.
