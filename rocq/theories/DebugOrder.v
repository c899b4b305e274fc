(** More proofs for C63: the order of the lines. *)
From Verif Require Import Base SpanModel TreeModel TreeSpec TreeProofs CorrectProofs RootProofs DebugModel DebugSpec DebugProofs.

(** [x] belongs below a line indented by [n]. *)
Definition below (n : nat) (x : line) : Prop :=
  match x with LNode k _ => (n < k)%nat | LDeep k | LMany k _ => (n <= k)%nat | _ => False end.

(** [l] does not begin with such a line. *)
Definition closed (n : nat) (l : list line) : Prop := match l with [] => True | x :: _ => ~ below n x end.

Lemma inside_app n l tail : Forall (below n) l -> closed n tail -> inside n (l ++ tail) = l.
Proof.
  intros H Ht. induction H as [|x l Hx _ IH].
  - cbn [app]. destruct tail as [|x tail]; [done|]. destruct x; cbn [inside closed below] in *; try done;
      [destruct (Nat.ltb_spec n level)|destruct (Nat.leb_spec n level)|destruct (Nat.leb_spec n level)]; try done; lia.
  - cbn [app]. destruct x; cbn [inside below] in *; try done;
      [destruct (Nat.ltb_spec n level)|destruct (Nat.leb_spec n level)|destruct (Nat.leb_spec n level)]; try lia; by rewrite IH.
Qed.

Lemma below_mono n m x : (n <= m)%nat -> below m x -> below n x.
Proof. destruct x; cbn; try done; lia. Qed.
Lemma closed_mono n m l : (n <= m)%nat -> closed n l -> closed m l.
Proof. intros H. destruct l as [|x l]; [done|]. cbn. intros Hx Hb. by apply Hx, (below_mono n m). Qed.

(** What follows the line of [p]. *)
Definition body (rest : nat) (spans : list span) (level : nat) (p : span) : list line := tail (print_node rest spans level p).
Lemma print_body rest spans level p : print_node rest spans level p = LNode level p :: body rest spans level p.
Proof. unfold body. rewrite print_node_eq. done. Qed.
Lemma body_eq rest spans level p : body rest spans level p =
  match rest with
  | O => match kids spans p with [] => [] | _ => [LDeep level] end
  | S r => concat (map (print_node r spans (S level)) (take 32 (kids spans p))) ++
           (if (32 <? length (kids spans p))%nat then [LMany level (Z.of_nat (length (kids spans p)) - 31)] else [])
  end.
Proof. unfold body. rewrite print_node_eq. done. Qed.

Lemma Forall_concat_map {A B} (P : B -> Prop) (f : A -> list B) l : (forall a, a ∈ l -> Forall P (f a)) -> Forall P (concat (map f l)).
Proof. intros H. apply Forall_forall. intros x Hx. apply elem_of_concat_map in Hx as (a & Ha & Hx). by apply (Forall_forall P (f a)) in Hx; [|apply H]. Qed.

Lemma body_below rest : forall spans level p, Forall (below level) (body rest spans level p).
Proof.
  induction rest as [|r IH]; intros spans level p; rewrite body_eq.
  - destruct (kids spans p); repeat constructor.
  - apply Forall_app. split.
    + apply Forall_concat_map. intros c _. rewrite print_body. constructor; [cbn; lia|].
      eapply Forall_impl; [apply IH|]. intros x. apply below_mono. lia.
    + destruct (_ <? _)%nat; repeat constructor.
Qed.

Lemma direct_app n l l' : direct n (l ++ l') = direct n l ++ direct n l'.
Proof. apply List.filter_app. Qed.
Lemma direct_none n l : Forall (below (S n)) l -> direct n l = [].
Proof.
  induction 1 as [|x l Hx _ IH]; [done|]. unfold direct in *. cbn [List.filter]. rewrite IH.
  destruct x; cbn in Hx; try done; destruct (Nat.eqb_spec level n); try done; try lia; destruct (Nat.eqb_spec level (S n)); done || lia.
Qed.
Lemma direct_children r spans level l : direct level (concat (map (print_node r spans (S level)) l)) = map (LNode (S level)) l.
Proof.
  induction l as [|c l IH]; [done|]. cbn [map concat]. rewrite direct_app, IH, print_body.
  change (LNode (S level) c :: ?b) with ([LNode (S level) c] ++ b). rewrite direct_app, (direct_none level (body r spans (S level) c)) by apply body_below.
  unfold direct at 1. cbn [List.filter]. by rewrite Nat.eqb_refl.
Qed.

(** The lines directly below a span's line. *)
Definition lines_below (spans : list span) (n : nat) (p : span) : list line :=
  (if (n <? 6)%nat then map (LNode (S n)) (take 32 (kids spans p)) else []) ++
  (if (n <? 6)%nat
   then if (32 <? length (kids spans p))%nat then [LMany n (Z.of_nat (length (drop 32 (kids spans p))) + 1)] else []
   else match kids spans p with [] => [] | _ => [LDeep n] end).

Lemma direct_body rest spans level p : (level + rest = 6)%nat -> direct level (body rest spans level p) = lines_below spans level p.
Proof.
  intros H. rewrite body_eq. unfold lines_below. destruct rest as [|r].
  - replace (level <? 6)%nat with false by (symmetry; apply Nat.ltb_ge; lia). cbn [app]. destruct (kids spans p); [done|].
    unfold direct. cbn [List.filter]. by rewrite Nat.eqb_refl.
  - replace (level <? 6)%nat with true by (symmetry; apply Nat.ltb_lt; lia). rewrite direct_app, direct_children. f_equal.
    destruct (Nat.ltb_spec 32 (length (kids spans p))); [|done]. unfold direct. cbn [List.filter]. rewrite Nat.eqb_refl, drop_length.
    do 2 f_equal. lia.
Qed.

Lemma split_concat' {A B} (f : nat -> A -> list B) ks : forall l1 x l2, concat (imap f ks) = l1 ++ x :: l2 ->
  exists k1 k k2 a b, ks = k1 ++ k :: k2 /\ f (length k1) k = a ++ x :: b /\ l2 = b ++ concat (imap (fun i => f (S (length k1) + i)%nat) k2).
Proof.
  revert f. induction ks as [|k ks IH]; intros f l1 x l2 E; [cbn in E; by destruct l1|]. rewrite imap_cons in E. cbn [concat] in E.
  assert (Hrest : forall m, concat (imap (f ∘ S) ks) = m ++ x :: l2 ->
    exists k1 k0 k2 a b, k :: ks = k1 ++ k0 :: k2 /\ f (length k1) k0 = a ++ x :: b /\ l2 = b ++ concat (imap (fun i => f (S (length k1) + i)%nat) k2)).
  { intros m E2. destruct (IH (f ∘ S) m x l2 E2) as (k1 & k' & k2 & a & b & -> & Ef & El). exists (k :: k1), k', k2, a, b. done. }
  apply app_eq_inv in E as [(m & E1 & E2)|(m & E1 & E2)].
  - destruct m as [|y m]; [by apply (Hrest [])|]. injection E2 as <- ->. by exists [], k, ks, l1, m.
  - by apply (Hrest m).
Qed.

Lemma print_node_direct rest : forall spans level p l1 n c l2 tail, (level + rest = 6)%nat -> closed level tail ->
  print_node rest spans level p = l1 ++ LNode n c :: l2 -> direct n (inside n (l2 ++ tail)) = lines_below spans n c.
Proof.
  induction rest as [|r IH]; intros spans level p l1 n c l2 tail Hl Ht E; rewrite print_body in E; (destruct l1 as [|x l1]; [injection E as <- <- <-|injection E as <- E]).
  1,3: rewrite inside_app by (done || apply body_below); by apply direct_body.
  - exfalso. assert (H : LNode n c ∈ l1 ++ LNode n c :: l2) by (apply elem_of_app; right; apply elem_of_list_here). rewrite <- E, body_eq in H.
    destruct (kids spans p); [by apply elem_of_nil in H|]. by apply elem_of_list_singleton in H.
  - rewrite body_eq in E. set (cut := if (32 <? _)%nat then _ else _) in E.
    assert (Hcut : forall y, y ∈ cut -> exists k, y = LMany level k).
    { subst cut. intros y. destruct (_ <? _)%nat; [|intros H; by apply elem_of_nil in H]. intros H. apply elem_of_list_singleton in H as ->. eauto. }
    assert (Hc : closed (S level) (cut ++ tail)).
    { destruct cut as [|y cut]; [by apply (closed_mono level); [lia|]|]. destruct (Hcut y) as [k ->]; [apply elem_of_list_here|]. cbn. lia. }
    assert (Ecat : exists l2', concat (map (print_node r spans (S level)) (take 32 (kids spans p))) = l1 ++ LNode n c :: l2' /\ l2 = l2' ++ cut).
    { apply app_eq_inv in E as [(m & E1 & E2)|(m & E1 & E2)].
      - destruct m as [|y m]; [|injection E2 as <- E2; by exists m]. exfalso. cbn [app] in E2. destruct (Hcut (LNode n c)) as [k Hk]; [|done]. rewrite <- E2. apply elem_of_list_here.
      - exfalso. destruct (Hcut (LNode n c)) as [k Hk]; [|done]. rewrite E2. apply elem_of_app. right. apply elem_of_list_here. }
    destruct Ecat as (l2' & Ecat & ->). clear E. rewrite <- (imap_const (print_node r spans (S level))) in Ecat.
    apply split_concat' in Ecat as (k1 & k & k2 & a & b & Eks & Ek & ->). change (imap _ k2) with (imap (const (print_node r spans (S level))) k2). rewrite imap_const. rewrite <- !app_assoc.
    apply (IH spans (S level) k a n c b); [lia| |exact Ek].
    destruct k2 as [|k' k2]; [exact Hc|]. change (closed (S level) ((print_node r spans (S level) k' ++ concat (map (print_node r spans (S level)) k2)) ++ cut ++ tail)). rewrite print_body. cbn. lia.
Qed.

Lemma children_in_order lvl spans l1 n p l2 : debug_print lvl spans = l1 ++ LNode n p :: l2 -> direct n (inside n l2) = lines_below spans n p.
Proof.
  destruct (decide (lvl = DebugLevel)) as [->|Hl].
  2:{ unfold debug_print. rewrite decide_False by done. by destruct l1. }
  rewrite debug_print_eq. destruct (candidates spans) as [|r0 rs] eqn:Ec; [by destruct l1|]. rewrite <- Ec. intros E.
  assert (Ecat : exists l2', concat (imap (fun idx root => LHead (s_trace r0) idx :: print_node 6 spans 0 root) (candidates spans)) = l1 ++ LNode n p :: l2' /\ l2 = l2' ++ [LBlank]).
  { apply app_eq_inv in E as [(m & E1 & E2)|(m & E1 & E2)].
    - destruct m as [|y m]; [by injection E2|injection E2 as <- E2; by exists m].
    - exfalso. assert (H : LNode n p ∈ m ++ LNode n p :: l2) by (apply elem_of_app; right; apply elem_of_list_here). rewrite <- E2 in H. by apply elem_of_list_singleton in H. }
  destruct Ecat as (l2' & Ecat & ->). apply split_concat' in Ecat as (k1 & k & k2 & a & b & Eks & Ek & ->).
  destruct a as [|x a]; [by apply (f_equal head) in Ek|]. apply (f_equal tail) in Ek. cbn [tail app] in Ek. rewrite <- app_assoc.
  apply (print_node_direct 6 spans 0 k a n p b); [done| |exact Ek].
  destruct k2 as [|k' k2]; [cbn; tauto|]. rewrite imap_cons. cbn. tauto.
Qed.

(* ---------- the roots ---------- *)

Lemma filter_bool {A} (P : A -> Prop) `{!forall x, Decision (P x)} (f : A -> bool) l : (forall x, f x = true <-> P x) -> List.filter f l = filter P l.
Proof.
  intros Hf. induction l as [|x l IH]; [done|]. cbn [List.filter]. rewrite filter_cons, IH. specialize (Hf x).
  destruct (f x); destruct (decide (P x)); try done; exfalso; naive_solver.
Qed.

Lemma candidates_tops spans : candidates spans = tops spans.
Proof.
  change (candidates spans) with (deref spans (roots spans)). unfold roots. rewrite deref_indices. unfold tops.
  apply filter_bool. intros s. unfold is_root, ids. rewrite orb_true_iff, negb_true_iff, Z.eqb_eq, bool_decide_eq_false, elem_of_list_to_set. done.
Qed.

Lemma outer_app l l' : outer (l ++ l') = outer l ++ outer l'.
Proof. apply List.filter_app. Qed.
Lemma outer_none l : Forall (below 0) l -> outer l = [].
Proof. induction 1 as [|x l Hx _ IH]; [done|]. unfold outer in *. cbn [List.filter]. rewrite IH. destruct x; cbn in Hx; try done. destruct level; [lia|done]. Qed.

Lemma outer_roots spans t l : forall k,
  outer (concat (imap (fun i root => LHead t (k + i)%nat :: print_node 6 spans 0 root) l)) = concat (imap (fun i root => [LHead t (k + i)%nat; LNode 0 root]) l).
Proof.
  induction l as [|r l IH]; intros k; [done|]. rewrite !imap_cons. cbn [concat]. rewrite outer_app. f_equal.
  - rewrite print_body. change (outer (?x :: ?y :: ?b)) with (x :: y :: outer b). by rewrite outer_none by apply body_below.
  - specialize (IH (S k)). etransitivity; [|etransitivity; [exact IH|]]; [f_equal|]; f_equal; apply imap_ext; intros i x _; cbn; by rewrite Nat.add_succ_r.
Qed.

Lemma roots_in_order spans r0 rs : tops spans = r0 :: rs ->
  outer (debug_print DebugLevel spans) = concat (imap (fun i root => [LHead (s_trace r0) i; LNode 0 root]) (tops spans)) ++ [LBlank] /\
  List.last (debug_print DebugLevel spans) (LDeep 0) = LBlank.
Proof.
  intros E. rewrite debug_print_eq, candidates_tops, E. split.
  - rewrite outer_app, <- E. f_equal. apply (outer_roots spans (s_trace r0) (tops spans) 0).
  - by rewrite List.last_last.
Qed.
