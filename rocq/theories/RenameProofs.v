(** Proofs for C110: only equality of identifiers counts. *)
From Coq Require Import Permutation.
From Verif Require Import Base IdModel SpanModel TreeModel TreeSpec TreeProofs RootProofs CorrectProofs FinishModel FinishSpec FinishProofs FinishTheorems ConnectProofs OrderProofs DecideProofs RenameSpec.

Section rename.
Context (f g : Z -> Z) (Hfg : renaming f g).
Notation F := (renamed f).
Notation G := (renamed g).

Lemma gf x : g (f x) = x. Proof. apply Hfg. Qed.
Lemma fg x : f (g x) = x. Proof. apply Hfg. Qed.
Lemma f0 : f 0 = 0. Proof. apply Hfg. Qed.
Lemma f_eq x y : f x = f y <-> x = y. Proof. split; [intros E; by rewrite <- (gf x), E, gf|by intros ->]. Qed.
Lemma f_zero x : f x = 0 <-> x = 0. Proof. rewrite <- f0 at 1. apply f_eq. Qed.
Lemma f_eqb x y : (f x =? f y) = (x =? y).
Proof. destruct (Z.eqb_spec x y) as [->|H]; [apply Z.eqb_refl|]. destruct (Z.eqb_spec (f x) (f y)) as [E|]; [|done]. exfalso. by apply H, (proj1 (f_eq x y)). Qed.
Lemma f_eqb0 x : (f x =? 0) = (x =? 0). Proof. rewrite <- f0 at 1. apply f_eqb. Qed.
Lemma GF s : G (F s) = s. Proof. destruct s. unfold renamed. cbn. by rewrite !gf. Qed.
Lemma FG s : F (G s) = s. Proof. destruct s. unfold renamed. cbn. by rewrite !fg. Qed.
Lemma F_inj s s' : F s = F s' -> s = s'. Proof. intros E. by rewrite <- (GF s), E, GF. Qed.

Lemma ids_F l : ids (map F l) = map f (ids l).
Proof. unfold ids. by rewrite !map_map. Qed.
Lemma in_ids_F id l : f id ∈ map f l <-> id ∈ l.
Proof. rewrite elem_of_list_fmap. split; [intros (y & E & H); apply (proj1 (f_eq _ _)) in E; by subst|intros H; by exists id]. Qed.
Lemma in_F s l : F s ∈ map F l <-> s ∈ l.
Proof. rewrite elem_of_list_fmap. split; [intros (y & E & H); apply F_inj in E; by subst|intros H; by exists s]. Qed.

(* ---------- merging ---------- *)

Lemma F_updated s new : F (updated_span s new) = updated_span (F s) (F new).
Proof.
  unfold updated_span. change (s_parent (F s)) with (f (s_parent s)). rewrite f_eqb0. unfold merged. change (s_timings (F new)) with (s_timings new).
  destruct (decide (from_server new)) as [H|H]; [rewrite (decide_True (P := from_server (F new))) by exact H|rewrite (decide_False (P := from_server (F new))) by exact H];
    destruct (s_parent s =? 0); reflexivity.
Qed.

(** What holds of the spans kept under [id]. *)
Definition proper (id : Z) (t : tree) : Prop :=
  descending (ids (t_spans t)) /\ Forall (fun s => s_trace s = id) (t_spans t) /\ Forall (fun s => int64_ok (s_ts s)) (t_spans t).

Lemma proper_add ord now id s t : map_order ord -> proper id t -> s_trace s = id -> int64_ok (s_ts s) -> proper id (add_span ord now s t).
Proof.
  intros Ho (Hd & Ht & Hok) Hs Hi. destruct (add_span_cases ord now s t Ho Hd) as [(l1 & l2 & E & _ & E' & Hd')|(l1 & x & l2 & E & Ex & E' & Hids)]; rewrite E'; unfold proper; cbn [t_spans];
    rewrite E in Ht, Hok; apply Forall_app in Ht as [T1 T2], Hok as [O1 O2].
  - split; [done|]. split; (apply Forall_app; split; [done|by constructor]).
  - split; [by rewrite Hids|]. apply Forall_cons in T2 as [Tx T2], O2 as [Ox O2].
    assert (Hk : s_trace (updated_span x s) = s_trace x /\ s_ts (updated_span x s) = s_ts x).
    { unfold updated_span, merged. destruct (decide _), (_ =? 0); done. }
    destruct Hk as [K1 K2]. split; (apply Forall_app; split; [done|constructor; [congruence|done]]).
Qed.

Lemma rename_add ord ord' now id s t t' : map_order ord -> map_order ord' -> proper id t -> proper (f id) t' -> renamed_tree f t t' ->
  renamed_tree f (add_span ord now s t) (add_span ord' now (F s) t').
Proof.
  intros Ho Ho' (Hd & _) (Hd' & _) (Hp & Hs & Hu & Hc).
  assert (Hids : forall i, f i ∈ ids (t_spans t') <-> i ∈ ids (t_spans t)).
  { intros i. assert (Q : ids (t_spans t') ≡ₚ map f (ids (t_spans t))) by (rewrite <- ids_F; by apply Permutation_map). rewrite Q. apply in_ids_F. }
  destruct (add_span_cases ord now s t Ho Hd) as [(l1 & l2 & E & En & E1 & _)|(l1 & x & l2 & E & Ex & E1 & _)];
  destruct (add_span_cases ord' now (F s) t' Ho' Hd') as [(k1 & k2 & E' & En' & E1' & _)|(k1 & y & k2 & E' & Ey & E1' & _)]; rewrite E1, E1'.
  - split; [|cbn; by rewrite Hc]. cbn [t_spans]. rewrite E in Hp. rewrite E' in Hp. rewrite map_app in *. cbn [map]. by rewrite <- !Permutation_middle, Hp.
  - exfalso. apply En, Hids. change (f (s_id s)) with (s_id (F s)). rewrite <- Ey, E'. unfold ids. rewrite map_app. apply elem_of_app. right. left.
  - exfalso. apply En'. change (s_id (F s)) with (f (s_id s)). apply Hids. rewrite <- Ex, E. unfold ids. rewrite map_app. apply elem_of_app. right. left.
  - assert (y = F x) as ->.
    { assert (Hx : F x ∈ t_spans t'). { rewrite Hp. apply in_F. rewrite E. apply elem_of_app. right. left. }
      apply (sorted_unique (t_spans t')); [done|rewrite E'; apply elem_of_app; right; left|done|]. rewrite Ey. change (s_id (F s)) with (f (s_id s)). change (s_id (F x)) with (f (s_id x)). by rewrite Ex. }
    split; [|cbn; by rewrite Hc]. cbn [t_spans]. rewrite E, E' in Hp. rewrite map_app in *. cbn [map] in *. rewrite <- !Permutation_middle in *.
    apply Permutation_cons_inv in Hp. by rewrite F_updated, Hp.
Qed.

(* ---------- emission ---------- *)

Lemma F_candidate l l' s : l' ≡ₚ map F l -> root_candidate l s <-> root_candidate l' (F s).
Proof.
  intros Hp. assert (Q : ids l' ≡ₚ map f (ids l)) by (rewrite <- ids_F; by apply Permutation_map).
  assert (Hin : F s ∈ l' <-> s ∈ l) by (rewrite Hp; apply in_F). unfold root_candidate. rewrite Hin. change (s_parent (F s)) with (f (s_parent s)). change (s_id (F s)) with (f (s_id s)). by rewrite f_eq, Q, in_ids_F.
Qed.
Lemma F_descends l l' p q : l' ≡ₚ map F l -> descends l' (F p) (map F q) <-> descends l p q.
Proof.
  intros Hp. revert p. induction q as [|x q IH]; intros p; [done|]. cbn [map descends]. rewrite IH. unfold child. rewrite Hp, in_F.
  change (s_parent (F x)) with (f (s_parent x)). change (s_id (F x)) with (f (s_id x)). change (s_id (F p)) with (f (s_id p)). by rewrite !f_eq.
Qed.
Lemma F_last l p : List.last (map F l) (F p) = F (List.last l p).
Proof. revert p. induction l as [|x l IH]; intros p; [done|]. cbn [map]. rewrite !last_cons. apply IH. Qed.
Lemma F_paths q : exists p, q = map F p.
Proof. exists (map G q). rewrite map_map. induction q as [|x q IH]; [done|]. cbn [map]. by rewrite FG, <- IH. Qed.
Lemma F_connected l l' p s : l' ≡ₚ map F l -> connected l' (F p) (F s) -> connected l p s.
Proof. intros Hp (q & Hq & El). destruct (F_paths q) as [q' ->]. exists q'. split; [by apply (F_descends l l')|]. apply F_inj. by rewrite <- F_last. Qed.
Lemma F_start root q : corrected_start (F root) (map F q) = corrected_start root q.
Proof.
  unfold corrected_start. change (own_start (F root) 0) with (own_start root 0). change (skew (F root)) with (skew root).
  generalize (own_start root 0), (skew root). induction q as [|x q IH]; intros st off; [done|]. cbn [map path_start].
  change (own_start (F x) off) with (own_start x off). change (skew (F x)) with (skew x). apply IH.
Qed.

Lemma F_hull l a b : hull l a b -> hull (map F l) a b.
Proof.
  intros ((x & Hx & Ex) & (y & Hy & Ey) & H). split; [exists (F x); by rewrite in_F|]. split; [exists (F y); by rewrite in_F|].
  intros s Hs. assert (Hs' : G s ∈ l) by (apply in_F; by rewrite FG). apply H in Hs'. exact Hs'.
Qed.
Lemma F_injected t l l' x : l' ≡ₚ map F l -> injected t l x -> injected (f t) l' (F x).
Proof.
  intros Hp ((a & b & cs & E & Hh & Hcs) & E2 & E3 & E4 & c & c' & Hc & Hc' & Hne & Hall).
  assert (Q : ids l' ≡ₚ map f (ids l)) by (rewrite <- ids_F; by apply Permutation_map).
  split; [|split; [|split; [|split]]].
  - exists a, b, (map F cs). split; [by rewrite E|]. split; [by apply F_hull|]. intros s. rewrite <- (FG s), in_F, Hcs. by apply F_candidate.
  - cbn. by rewrite E2.
  - cbn. by rewrite E3.
  - rewrite Q. change (s_id (F x)) with (f (s_id x)). by rewrite in_ids_F.
  - exists (F c), (F c'). split; [by apply (F_candidate l)|]. split; [by apply (F_candidate l)|]. split; [intros ->%F_inj; done|].
    intros s. rewrite <- (FG s). intros Hs. apply (F_candidate l) in Hs; [|done]. cbn. apply Hall in Hs. cbn in Hs. by rewrite Hs.
Qed.

(** What becomes of one span. *)
Definition becomes (all : list span) (root s s' : span) : Prop :=
  (exists start dur, s' = retimed s start dur) /\
  (forall path, descends all root path -> List.last path root = s -> s' = retimed s (corrected_start root path) (own_duration s)) /\
  (~ connected all root s -> s' = s).

Lemma F_becomes all all' root s s' : all' ≡ₚ map F all -> becomes all root s s' -> becomes all' (F root) (F s) (F s').
Proof.
  intros Hp ((st & du & E) & H1 & H2). split; [|split].
  - exists st, du. by rewrite E.
  - intros q Hq El. destruct (F_paths q) as [q' ->]. apply (F_descends all) in Hq; [|done]. rewrite F_last in El. apply F_inj in El.
    rewrite (H1 q') by done. by rewrite F_start.
  - intros Hn. f_equal. apply H2. intros (q & Hq & El). apply Hn. exists (map F q). split; [by apply (F_descends all)|]. by rewrite F_last, El.
Qed.

Lemma rename_emission t l l' out : l' ≡ₚ map F l -> emission t l out -> exists out', emission (f t) l' out' /\ out' ≡ₚ map F out.
Proof.
  intros Hp (all & root & Hall & Hr & Hu & HF & H1 & H2).
  assert (HA : exists all', all' ≡ₚ map F all /\ (all' = l' \/ exists x, injected (f t) l' x /\ all' ≡ₚ x :: l')).
  { destruct Hall as [->|(x & Hx & Hall)]; [exists l'; split; [done|by left]|]. exists (F x :: l'). split.
    - rewrite Hp. change (F x :: map F l) with (map F (x :: l)). apply Permutation_map. by symmetry.
    - right. exists (F x). split; [by apply (F_injected t l)|done]. }
  destruct HA as (all' & Hp' & Hall'). 
  assert (HB : Forall2 (becomes all root) all out).
  { apply Forall2_same_length_lookup_2; [by eapply Forall2_length|]. intros i s s' Hs Hs'. split; [|split].
    - by eapply (Forall2_lookup_lr _ _ _ _ _ _ HF Hs Hs').
    - intros q Hq <-. rewrite (H1 q i Hq Hs) in Hs'. by injection Hs'.
    - intros Hn. rewrite (H2 i s Hs Hn) in Hs'. by injection Hs'. }
  assert (HC : Forall2 (becomes all' (F root)) (map F all) (map F out)).
  { apply Forall2_fmap. eapply Forall2_impl; [exact HB|]. intros s s'. by apply F_becomes. }
  destruct (Permutation_Forall2 (symmetry Hp') HC) as (out' & Hout & HD). exists out'. split; [|by symmetry].
  exists all', (F root). split; [done|]. split; [by apply (F_candidate all)|]. split; [|split; [|split]].
  - intros r. rewrite <- (FG r). intros Hc. apply (F_candidate all) in Hc; [|done]. f_equal. by apply Hu.
  - eapply Forall2_impl; [exact HD|]. by intros s s' [? _].
  - intros q i Hq Hi. destruct (Forall2_lookup_l _ _ _ _ _ HD Hi) as (s' & Hs' & _ & Hb & _). rewrite Hs'. f_equal. by apply Hb.
  - intros i s Hi Hn. destruct (Forall2_lookup_l _ _ _ _ _ HD Hi) as (s' & Hs' & _ & _ & Hb). rewrite Hs'. f_equal. by apply Hb.
Qed.
End rename.

Lemma renaming_sym f g : renaming f g -> renaming g f.
Proof. intros (H1 & H2 & H3). split; [done|]. split; [done|]. by rewrite <- H3 at 1. Qed.
