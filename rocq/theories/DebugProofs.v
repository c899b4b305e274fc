(** Proofs for C63. *)
From Verif Require Import Base SpanModel TreeModel TreeSpec TreeProofs CorrectProofs RootProofs DebugModel DebugSpec.

Lemma deref_indices_gen test spans : forall pre,
  deref (pre ++ spans) (map fst (List.filter (fun p => test p.2) (imap (fun j x => ((length pre + j)%nat, x)) spans))) = List.filter test spans.
Proof.
  induction spans as [|s spans IH]; intros pre; [done|]. rewrite imap_cons. cbn [List.filter snd]. rewrite Nat.add_0_r.
  assert (E : imap ((fun j x => ((length pre + j)%nat, x)) ∘ S) spans = imap (fun j x => ((length (pre ++ [s]) + j)%nat, x)) spans) by (apply imap_ext; intros; cbn; rewrite app_length; cbn; f_equal; lia).
  rewrite E. specialize (IH (pre ++ [s])). rewrite <- app_assoc in IH. cbn [app] in IH. destruct (test s); [|done].
  unfold deref in *. cbn [map fst omap list_omap]. rewrite lookup_app_r, Nat.sub_diag by lia. cbn. f_equal. exact IH.
Qed.

Lemma deref_indices test spans : deref spans (indices test spans) = List.filter test spans.
Proof. apply (deref_indices_gen test spans []). Qed.

Lemma deref_children spans p : deref spans (children_of (s_id p) spans) = kids spans p.
Proof.
  unfold children_of. rewrite deref_indices. unfold kids, is_root. induction spans as [|s spans IH]; [done|].
  cbn [List.filter]. rewrite filter_cons. destruct (Z.eqb_spec (s_parent s) (s_id p)), (Z.eqb_spec (s_parent s) (s_id s)); cbn [andb negb].
  - rewrite decide_False by tauto. done.
  - rewrite decide_True by done. by f_equal.
  - rewrite decide_False by tauto. done.
  - rewrite decide_False by tauto. done.
Qed.

(** The loop over the children. *)
Lemma print_node_eq rest spans level p : print_node rest spans level p =
  LNode level p ::
  match rest with
  | O => match kids spans p with [] => [] | _ => [LDeep level] end
  | S r => concat (map (print_node r spans (S level)) (take 32 (kids spans p))) ++
           (if (32 <? length (kids spans p))%nat then [LMany level (Z.of_nat (length (kids spans p)) - 31)] else [])
  end.
Proof.
  destruct rest as [|r]; cbn [print_node]; f_equal; rewrite deref_children; [by destruct (kids spans p)|].
  set (n := Z.of_nat (length (kids spans p)) - Z.of_nat maxChildCount + 1).
  assert (En : n = Z.of_nat (length (kids spans p)) - 31) by (unfold n, maxChildCount; lia). rewrite <- En. clear En. clearbody n.
  assert (H : forall l idx, (idx <= 32)%nat ->
    (fix loop (idx : nat) (l : list span) : list line :=
      match l with [] => [] | child :: l' =>
        if (idx =? maxChildCount)%nat then [LMany level n] else print_node r spans (S level) child ++ loop (S idx) l' end) idx l =
    concat (map (print_node r spans (S level)) (take (32 - idx) l)) ++ (if (32 - idx <? length l)%nat then [LMany level n] else [])).
  { induction l as [|c l IH]; intros idx Hi.
    - rewrite take_nil. cbn [map concat length]. destruct (Nat.ltb_spec (32 - idx) 0); [lia|done].
    - destruct (Nat.eqb_spec idx maxChildCount) as [->|Hne].
      + unfold maxChildCount. rewrite Nat.sub_diag. done.
      + unfold maxChildCount in Hne. rewrite IH by lia. replace (32 - idx)%nat with (S (32 - S idx)) by lia. cbn [take map concat length]. rewrite <- app_assoc. done. }
  by apply (H (kids spans p) 0%nat), Nat.le_0_l.
Qed.

Lemma nodes_app l l' : nodes (l ++ l') = nodes l ++ nodes l'.
Proof. unfold nodes. apply omap_app. Qed.
Lemma elem_of_nodes l s : s ∈ nodes l <-> exists n, LNode n s ∈ l.
Proof.
  unfold nodes. rewrite elem_of_list_omap. split.
  - intros (x & Hx & E). destruct x; try done. injection E as ->. eauto.
  - intros [n Hn]. eauto.
Qed.

Lemma elem_of_kids spans p c : c ∈ kids spans p <-> child spans p c.
Proof. unfold kids, child. rewrite elem_of_list_filter. tauto. Qed.
Lemma in_take {A} n (l : list A) x : x ∈ take n l -> x ∈ l.
Proof. intros H. rewrite <- (take_drop n l). apply elem_of_app. by left. Qed.
Lemma walks_descends spans l : forall p, walks spans p l -> descends spans p l.
Proof.
  induction l as [|c l IH]; intros p; [done|]. cbn [walks descends]. intros [Hc Hl]. split; [|by apply IH].
  apply elem_of_kids. by apply in_take in Hc.
Qed.

Lemma elem_of_concat_map {A B} (f : A -> list B) l x : x ∈ concat (map f l) <-> exists a, a ∈ l /\ x ∈ f a.
Proof.
  induction l as [|a l IH]; cbn [map concat].
  - split; [intros H; by apply elem_of_nil in H|]. intros (a & H & _). by apply elem_of_nil in H.
  - rewrite elem_of_app, IH. split.
    + intros [H|(b & Hb & H)]; [exists a; split; [apply elem_of_list_here|done]|]. exists b. split; [by apply elem_of_list_further|done].
    + intros (b & [-> | Hb]%elem_of_cons & H); [by left|]. right. eauto.
Qed.

Lemma print_node_nodes rest : forall spans level p n s,
  LNode n s ∈ print_node rest spans level p <-> exists l, walks spans p l /\ (length l <= rest)%nat /\ n = (level + length l)%nat /\ List.last l p = s.
Proof.
  induction rest as [|r IH]; intros spans level p n s; rewrite print_node_eq, elem_of_cons.
  - split.
    + intros [H|H].
      * injection H as -> ->. exists []. cbn. split; [done|]. split; [lia|]. split; [lia|done].
      * exfalso. destruct (kids spans p); [by apply elem_of_nil in H|]. by apply elem_of_list_singleton in H.
    + intros ([|c l] & _ & Hl & -> & <-); cbn in Hl; [|lia]. left. cbn. f_equal. lia.
  - rewrite elem_of_app, elem_of_concat_map. split.
    + intros [H|[(c & Hc & H)|H]].
      * injection H as -> ->. exists []. cbn. split; [done|]. split; [lia|]. split; [lia|done].
      * apply IH in H as (l & Hw & Hl & -> & <-). exists (c :: l). rewrite last_cons. cbn [walks length]. split; [done|]. split; [lia|]. split; [lia|done].
      * exfalso. destruct (_ <? _)%nat; [by apply elem_of_list_singleton in H|by apply elem_of_nil in H].
    + intros ([|c l] & Hw & Hl & -> & <-); [left; cbn; f_equal; lia|]. right. left. cbn [walks length] in *. destruct Hw as [Hc Hw].
      exists c. split; [done|]. apply IH. exists l. split; [done|]. split; [lia|]. split; [lia|]. by rewrite last_cons.
Qed.

Lemma kids_NoDup spans p : NoDup (ids spans) -> NoDup (kids spans p).
Proof. intros H. unfold kids. apply NoDup_filter. by eapply NoDup_fmap_1. Qed.
Lemma take_NoDup {A} n (l : list A) : NoDup l -> NoDup (take n l).
Proof. intros H. rewrite <- (take_drop n l) in H. apply NoDup_app in H; tauto. Qed.

Lemma nodes_concat {A} (f : A -> list line) l : nodes (concat (map f l)) = concat (map (fun a => nodes (f a)) l).
Proof. induction l as [|a l IH]; [done|]. cbn [map concat]. by rewrite nodes_app, IH. Qed.

Lemma NoDup_concat_map {A B} (f : A -> list B) l : NoDup l -> (forall a, a ∈ l -> NoDup (f a)) ->
  (forall a b x, a ∈ l -> b ∈ l -> x ∈ f a -> x ∈ f b -> a = b) -> NoDup (concat (map f l)).
Proof.
  induction l as [|a l IH]; intros Hn Hf Hd; [constructor|]. apply NoDup_cons in Hn as [Ha Hn]. cbn [map concat]. apply NoDup_app. split; [|split].
  - apply Hf, elem_of_list_here.
  - intros x Hx (b & Hb & Hx')%elem_of_concat_map. apply Ha. rewrite (Hd a b x); [done|apply elem_of_list_here|by apply elem_of_list_further|done|done].
  - apply IH; [done|intros b Hb; apply Hf; by apply elem_of_list_further|]. intros b c x Hb Hc. apply Hd; by apply elem_of_list_further.
Qed.

Lemma print_node_once rest spans root : NoDup (ids spans) -> root_candidate spans root -> forall level q p,
  descends spans root q -> p = List.last q root -> NoDup (nodes (print_node rest spans level p)).
Proof.
  intros Hn Hr. induction rest as [|r IH]; intros level q p Hq Ep; rewrite print_node_eq.
  - destruct (kids spans p); cbn; apply NoDup_singleton.
  - change (LNode level p :: ?x) with ([LNode level p] ++ x). rewrite !nodes_app, nodes_concat. cbn [app]. change (nodes [LNode level p]) with [p]. cbn [app].
    assert (nodes (if (32 <? length (kids spans p))%nat then [LMany level (Z.of_nat (length (kids spans p)) - 31)] else []) = []) as -> by (by destruct (_ <? _)%nat).
    rewrite app_nil_r. apply NoDup_cons. split.
    + intros (c & Hc & Hx)%elem_of_concat_map. apply elem_of_nodes in Hx as [n Hx]. apply print_node_nodes in Hx as (l & Hw & _ & _ & El).
      assert ([] = c :: l); [|done]. apply (below_unique spans root Hn Hr q p); [done|done|done| |].
      * cbn. split; [by apply in_take, elem_of_kids in Hc|by apply walks_descends].
      * rewrite last_cons, El. done.
    + apply NoDup_concat_map; [by apply take_NoDup, kids_NoDup| |].
      * intros c Hc. apply (IH _ (q ++ [c])); [|by rewrite last_app1]. apply descends_snoc. split; [done|]. rewrite <- Ep. by apply in_take, elem_of_kids in Hc.
      * intros a b x Ha Hb Hx Hx'. apply elem_of_nodes in Hx as [n Hx], Hx' as [n' Hx']. apply print_node_nodes in Hx as (l & Hw & _ & _ & El), Hx' as (l' & Hw' & _ & _ & El').
        assert (a :: l = b :: l') as E; [|by injection E]. apply (below_unique spans root Hn Hr q p); [done|done| | |].
        -- cbn. split; [by apply in_take, elem_of_kids in Ha|by apply walks_descends].
        -- cbn. split; [by apply in_take, elem_of_kids in Hb|by apply walks_descends].
        -- rewrite !last_cons, El, El'. done.
Qed.

Lemma roots_apart spans r r' l l' : NoDup (ids spans) -> root_candidate spans r -> root_candidate spans r' ->
  descends spans r l -> descends spans r' l' -> List.last l r = List.last l' r' -> r = r'.
Proof.
  intros Hn Hr Hr'. assert (Hin : r ∈ spans) by (by destruct Hr). assert (Hin' : r' ∈ spans) by (by destruct Hr').
  revert l'. induction l as [|a l IH] using rev_ind; intros l' Hl Hl' E.
  - destruct l' as [|b l' _] using rev_ind; [done|]. apply descends_snoc in Hl' as [Hl' Hc]. rewrite last_app1 in E. cbn in E. subst b.
    exfalso. revert Hc. apply root_no_parent; [done|]. by apply descends_in.
  - rewrite last_app1 in E. apply descends_snoc in Hl as [Hl Hc]. destruct l' as [|b l' _] using rev_ind.
    + cbn in E. subst a. exfalso. revert Hc. apply root_no_parent; [done|]. by apply descends_in.
    + apply descends_snoc in Hl' as [Hl' Hc']. rewrite last_app1 in E. subst b. apply (IH l'); [done|done|].
      apply (child_unique spans Hn _ _ a); [by apply descends_in|by apply descends_in|done|done].
Qed.

(* ---------- the whole output ---------- *)

Lemma debug_print_eq spans : debug_print DebugLevel spans =
  match candidates spans with
  | [] => []
  | root0 :: _ => concat (imap (fun idx root => LHead (s_trace root0) idx :: print_node 6 spans 0 root) (candidates spans)) ++ [LBlank]
  end.
Proof. unfold debug_print. rewrite decide_True by done. done. Qed.

Lemma elem_of_concat_imap {A B} (f : nat -> A -> list B) l x : x ∈ concat (imap f l) <-> exists i a, l !! i = Some a /\ x ∈ f i a.
Proof.
  revert f. induction l as [|a l IH]; intros f.
  - cbn. split; [intros H; by apply elem_of_nil in H|]. intros (i & a & H & _). by rewrite lookup_nil in H.
  - rewrite imap_cons. cbn [concat]. rewrite elem_of_app, IH. split.
    + intros [H|(i & b & Hi & H)]; [by exists 0%nat, a|]. by exists (S i), b.
    + intros ([|i] & b & Hi & H); [injection Hi as ->; by left|]. right. by exists i, b.
Qed.

Lemma printed_nodes spans n s :
  LNode n s ∈ debug_print DebugLevel spans <->
  exists root l, root_candidate spans root /\ walks spans root l /\ n = length l /\ (n <= 6)%nat /\ List.last l root = s.
Proof.
  rewrite debug_print_eq. destruct (candidates spans) as [|r0 rs] eqn:Ec.
  { split; [intros H; by apply elem_of_nil in H|]. intros (root & l & Hr & _). apply elem_of_candidates in Hr. rewrite Ec in Hr. by apply elem_of_nil in Hr. }
  rewrite <- Ec. rewrite elem_of_app, elem_of_concat_imap. split.
  - intros [(i & root & Hi & H)|H]; [|by apply elem_of_list_singleton in H]. apply elem_of_cons in H as [H|H]; [done|].
    apply print_node_nodes in H as (l & Hw & Hl & -> & <-). exists root, l. split; [apply elem_of_candidates; by eapply elem_of_list_lookup_2|]. split; [done|]. split; [done|]. split; [lia|done].
  - intros (root & l & Hr & Hw & -> & Hl & <-). left. apply elem_of_candidates in Hr. apply elem_of_list_lookup in Hr as [i Hi]. exists i, root. split; [done|].
    apply elem_of_cons. right. apply print_node_nodes. by exists l.
Qed.

Lemma nodes_heads {A} (g : nat -> line) (f : A -> list line) l : (forall i, nodes [g i] = []) -> forall k,
  nodes (concat (imap (fun i a => g (k + i)%nat :: f a) l)) = concat (map (fun a => nodes (f a)) l).
Proof.
  intros Hg. induction l as [|a l IH]; intros k; [done|]. rewrite imap_cons. cbn [concat map]. change (g ?x :: ?y) with ([g x] ++ y). rewrite !nodes_app, Hg. cbn [app]. f_equal.
  rewrite <- (IH (S k)). f_equal. f_equal. apply imap_ext. intros i x _. cbn. do 2 f_equal. lia.
Qed.

Lemma nodes_roots spans t l : nodes (concat (imap (fun idx root => LHead t idx :: print_node 6 spans 0 root) l)) = concat (map (fun a => nodes (print_node 6 spans 0 a)) l).
Proof. exact (nodes_heads (fun i => LHead t i) (print_node 6 spans 0) l (fun _ => eq_refl) 0). Qed.

Lemma printed_once lvl spans : NoDup (ids spans) -> NoDup (nodes (debug_print lvl spans)).
Proof.
  intros Hn. destruct (decide (lvl = DebugLevel)) as [->|Hl]; [|unfold debug_print; rewrite decide_False by done; constructor].
  rewrite debug_print_eq. destruct (candidates spans) as [|r0 rs] eqn:Ec; [constructor|]. rewrite <- Ec. rewrite nodes_app.
  rewrite nodes_roots. change (nodes [LBlank]) with (@nil span). rewrite app_nil_r.
  apply NoDup_concat_map; [by apply candidates_NoDup| |].
  - intros r Hr. apply elem_of_candidates in Hr. by apply (print_node_once 6 spans r Hn Hr 0 []).
  - intros a b x Ha Hb Hx Hx'. apply elem_of_candidates in Ha, Hb. apply elem_of_nodes in Hx as [n Hx], Hx' as [n' Hx'].
    apply print_node_nodes in Hx as (l & Hw & _ & _ & El), Hx' as (l' & Hw' & _ & _ & El'). apply (roots_apart spans a b l l' Hn Ha Hb); [by apply walks_descends..|]. by rewrite El, El'.
Qed.

(* ---------- size ---------- *)

Lemma print_node_size rest : forall spans level p, (length (print_node rest spans level p) <= 2 * length (nodes (print_node rest spans level p)))%nat.
Proof.
  induction rest as [|r IH]; intros spans level p; rewrite print_node_eq.
  - destruct (kids spans p); cbn; lia.
  - change (LNode level p :: ?x) with ([LNode level p] ++ x). rewrite !nodes_app, !app_length, nodes_concat.
    assert (H : forall l, (length (concat (map (print_node r spans (S level)) l)) <= 2 * length (concat (map (fun a => nodes (print_node r spans (S level) a)) l)))%nat).
    { induction l as [|c l IHl]; [done|]. cbn [map concat]. rewrite !app_length. specialize (IH spans (S level) c). lia. }
    specialize (H (take 32 (kids spans p))). destruct (_ <? _)%nat; cbn [nodes omap list_omap length]; lia.
Qed.

Lemma printed_size lvl spans : NoDup (ids spans) -> (length (debug_print lvl spans) <= 3 * length spans + 1)%nat.
Proof.
  intros Hn. destruct (decide (lvl = DebugLevel)) as [->|Hl]; [|unfold debug_print; rewrite decide_False by done; cbn; lia].
  pose proof (printed_once DebugLevel spans Hn) as Ho.
  assert (Hlen : (length (nodes (debug_print DebugLevel spans)) <= length spans)%nat).
  { apply submseteq_length, NoDup_submseteq; [done|]. intros s [n Hs]%elem_of_nodes. apply printed_nodes in Hs as (root & l & Hr & Hw & _ & _ & <-).
    apply descends_in; [by destruct Hr|by apply walks_descends]. }
  assert (Hroots : (length (candidates spans) <= length spans)%nat).
  { apply submseteq_length, NoDup_submseteq; [by apply candidates_NoDup|]. intros s Hs. apply elem_of_candidates in Hs. by destruct Hs. }
  rewrite debug_print_eq in *. destruct (candidates spans) as [|r0 rs] eqn:Ec; [cbn; lia|]. rewrite <- Ec in *. rewrite nodes_app in Hlen.
  rewrite nodes_roots in Hlen. rewrite !app_length in *. cbn [length nodes omap list_omap] in *.
  assert (H : forall l (g : nat -> nat), (length (concat (imap (fun idx root => LHead (s_trace r0) (g idx) :: print_node 6 spans 0 root) l)) <= length l + 2 * length (concat (map (fun a => nodes (print_node 6 spans 0 a)) l)))%nat).
  { induction l as [|c l IHl]; intros g; [done|]. rewrite imap_cons. cbn [map concat length app]. rewrite !app_length. pose proof (print_node_size 6 spans 0 c). specialize (IHl (g ∘ S)). 
    unfold compose in *. cbn [length]. lia. }
  specialize (H (candidates spans) (fun i => i)). cbn beta in H. lia.
Qed.

Lemma small_walks spans l : (forall p, p ∈ spans -> (length (kids spans p) <= 32)%nat) -> forall p, p ∈ spans -> walks spans p l <-> descends spans p l.
Proof.
  intros Hk. induction l as [|c l IH]; intros p Hp; [done|]. cbn [walks descends]. rewrite take_ge by (by apply Hk). rewrite elem_of_kids.
  split; intros [Hc Hl]; (split; [done|]); apply IH; try done; by destruct Hc.
Qed.

Lemma printed_all spans n s : (forall p, p ∈ spans -> (length (kids spans p) <= 32)%nat) ->
  LNode n s ∈ debug_print DebugLevel spans <->
  exists root l, root_candidate spans root /\ descends spans root l /\ n = length l /\ (n <= 6)%nat /\ List.last l root = s.
Proof.
  intros Hk. rewrite printed_nodes. split; intros (root & l & Hr & Hw & H); exists root, l; (split; [done|]); (split; [|done]); [by apply walks_descends|].
  apply small_walks; [done| |done]. by destruct Hr.
Qed.

(* ---------- what is left out ---------- *)

Lemma print_node_deep rest : forall spans level p n,
  LDeep n ∈ print_node rest spans level p <-> exists l, walks spans p l /\ length l = rest /\ n = (level + rest)%nat /\ kids spans (List.last l p) <> [].
Proof.
  induction rest as [|r IH]; intros spans level p n; rewrite print_node_eq, elem_of_cons.
  - split.
    + intros [H|H]; [done|]. exists []. cbn. destruct (kids spans p) eqn:E; [by apply elem_of_nil in H|]. apply elem_of_list_singleton in H. injection H as ->. split; [done|]. split; [done|]. split; [lia|done].
    + intros ([|c l] & _ & Hl & -> & Hk); [|done]. right. cbn in Hk. destruct (kids spans p); [done|]. apply elem_of_list_singleton. f_equal. lia.
  - rewrite elem_of_app, elem_of_concat_map. split.
    + intros [H|[(c & Hc & H)|H]]; [done| |].
      * apply IH in H as (l & Hw & Hl & -> & Hk). exists (c :: l). rewrite last_cons. cbn [walks length]. split; [done|]. split; [lia|]. split; [lia|done].
      * exfalso. destruct (_ <? _)%nat; [by apply elem_of_list_singleton in H|by apply elem_of_nil in H].
    + intros ([|c l] & Hw & Hl & -> & Hk); [done|]. right. left. cbn [walks length] in *. destruct Hw as [Hc Hw].
      exists c. split; [done|]. apply IH. exists l. rewrite last_cons in Hk. split; [done|]. split; [lia|]. split; [lia|done].
Qed.

Lemma print_node_many rest : forall spans level p n k,
  LMany n k ∈ print_node rest spans level p <-> exists l, walks spans p l /\ (length l < rest)%nat /\ n = (level + length l)%nat /\
    (32 < length (kids spans (List.last l p)))%nat /\ k = Z.of_nat (length (kids spans (List.last l p))) - 31.
Proof.
  induction rest as [|r IH]; intros spans level p n k; rewrite print_node_eq, elem_of_cons.
  - split; [|intros (l & _ & H & _); lia]. intros [H|H]; [done|]. exfalso. destruct (kids spans p); [by apply elem_of_nil in H|]. by apply elem_of_list_singleton in H.
  - rewrite elem_of_app, elem_of_concat_map. split.
    + intros [H|[(c & Hc & H)|H]]; [done| |].
      * apply IH in H as (l & Hw & Hl & -> & Hk & ->). exists (c :: l). rewrite last_cons. cbn [walks length]. split; [done|]. split; [lia|]. split; [lia|done].
      * destruct (Nat.ltb_spec 32 (length (kids spans p))) as [Hlt|]; [|by apply elem_of_nil in H]. apply elem_of_list_singleton in H. injection H as -> ->.
        exists []. cbn [walks length List.last]. split; [done|]. split; [lia|]. split; [lia|done].
    + intros ([|c l] & Hw & Hl & -> & Hk & ->).
      * right. right. cbn [List.last length] in *. rewrite (proj2 (Nat.ltb_lt _ _) Hk). apply elem_of_list_singleton. f_equal. lia.
      * right. left. cbn [walks length] in *. destruct Hw as [Hc Hw]. exists c. split; [done|]. apply IH. exists l. rewrite last_cons in *. split; [done|]. split; [lia|]. split; [lia|done].
Qed.

Lemma cut_deep spans n : LDeep n ∈ debug_print DebugLevel spans <->
  n = 6%nat /\ exists root l, root_candidate spans root /\ walks spans root l /\ length l = 6%nat /\ kids spans (List.last l root) <> [].
Proof.
  rewrite debug_print_eq. destruct (candidates spans) as [|r0 rs] eqn:Ec.
  { split; [intros H; by apply elem_of_nil in H|]. intros (_ & root & l & Hr & _). apply elem_of_candidates in Hr. rewrite Ec in Hr. by apply elem_of_nil in Hr. }
  rewrite <- Ec. rewrite elem_of_app, elem_of_concat_imap. split.
  - intros [(i & root & Hi & H)|H]; [|by apply elem_of_list_singleton in H]. apply elem_of_cons in H as [H|H]; [done|].
    apply print_node_deep in H as (l & Hw & Hl & -> & Hk). split; [done|]. exists root, l. split; [apply elem_of_candidates; by eapply elem_of_list_lookup_2|done].
  - intros (-> & root & l & Hr & Hw & Hl & Hk). left. apply elem_of_candidates in Hr. apply elem_of_list_lookup in Hr as [i Hi]. exists i, root. split; [done|].
    apply elem_of_cons. right. apply print_node_deep. by exists l.
Qed.

Lemma cut_many spans n k : LMany n k ∈ debug_print DebugLevel spans <->
  exists root l, root_candidate spans root /\ walks spans root l /\ length l = n /\ (n < 6)%nat /\
    let c := kids spans (List.last l root) in (32 < length c)%nat /\ k = Z.of_nat (length (drop 32 c)) + 1.
Proof.
  rewrite debug_print_eq. destruct (candidates spans) as [|r0 rs] eqn:Ec.
  { split; [intros H; by apply elem_of_nil in H|]. intros (root & l & Hr & _). apply elem_of_candidates in Hr. rewrite Ec in Hr. by apply elem_of_nil in Hr. }
  rewrite <- Ec. rewrite elem_of_app, elem_of_concat_imap. split.
  - intros [(i & root & Hi & H)|H]; [|by apply elem_of_list_singleton in H]. apply elem_of_cons in H as [H|H]; [done|].
    apply print_node_many in H as (l & Hw & Hl & -> & Hk & ->). exists root, l. split; [apply elem_of_candidates; by eapply elem_of_list_lookup_2|].
    split; [done|]. split; [done|]. split; [lia|]. cbv zeta. split; [done|]. rewrite drop_length. lia.
  - intros (root & l & Hr & Hw & Hl & Hn & Hk & ->). left. apply elem_of_candidates in Hr. apply elem_of_list_lookup in Hr as [i Hi]. exists i, root. split; [done|].
    apply elem_of_cons. right. apply print_node_many. exists l. split; [done|]. split; [lia|]. split; [done|]. split; [done|]. rewrite drop_length. lia.
Qed.

(* ---------- indentation ---------- *)

Lemma split_concat {A B} (f : nat -> A -> list B) ks : forall l1 x l2, concat (imap f ks) = l1 ++ x :: l2 ->
  exists k1 k k2 a b, ks = k1 ++ k :: k2 /\ f (length k1) k = a ++ x :: b /\ l1 = concat (imap f k1) ++ a.
Proof.
  revert f. induction ks as [|k ks IH]; intros f l1 x l2 E; [cbn in E; by destruct l1|]. rewrite imap_cons in E. cbn [concat] in E.
  apply app_eq_inv in E as [(m & E1 & E2)|(m & E1 & E2)].
  - destruct m as [|y m].
    + cbn [app] in E2. rewrite app_nil_r in E1. destruct (IH (f ∘ S) [] x l2 (eq_sym E2)) as (k1 & k' & k2 & a & b & -> & Ef & El).
      exists (k :: k1), k', k2, a, b. split; [done|]. split; [exact Ef|]. rewrite imap_cons. cbn [concat]. rewrite <- app_assoc, <- El, app_nil_r. done.
    + injection E2 as <- E2. exists [], k, ks, l1, m. split; [done|]. split; [exact E1|done].
  - destruct (IH (f ∘ S) m x l2 E2) as (k1 & k' & k2 & a & b & -> & Ef & El).
    exists (k :: k1), k', k2, a, b. split; [done|]. split; [exact Ef|]. rewrite imap_cons. cbn [concat]. rewrite <- app_assoc, <- El. done.
Qed.

(** [l1] ends with the line of a parent of [c] one level above, and deeper lines. *)
Definition under (spans : list span) (n : nat) (c : span) (l1 : list line) : Prop :=
  exists l0 q mid, l1 = l0 ++ LNode n q :: mid /\ child spans q c /\ forall m s, LNode m s ∈ mid -> (n < m)%nat.

Lemma print_node_indent rest : forall spans level p l1 n c l2, print_node rest spans level p = l1 ++ LNode n c :: l2 ->
  (l1 = [] /\ n = level /\ c = p) \/ (exists m, n = S m /\ under spans m c l1).
Proof.
  induction rest as [|r IH]; intros spans level p l1 n c l2 E; rewrite print_node_eq in E; (destruct l1 as [|x l1]; injection E as <- E; [left; done|right]).
  - exfalso. assert (H : LNode n c ∈ l1 ++ LNode n c :: l2) by (apply elem_of_app; right; apply elem_of_list_here). rewrite <- E in H.
    destruct (kids spans p); [by apply elem_of_nil in H|]. by apply elem_of_list_singleton in H.
  - assert (Ecat : exists l2', concat (map (print_node r spans (S level)) (take 32 (kids spans p))) = l1 ++ LNode n c :: l2').
    { apply app_eq_inv in E as [(m & E1 & E2)|(m & E1 & E2)].
      - destruct m as [|y m]; [|injection E2 as <- E2; by exists m]. exfalso. cbn [app] in E2. destruct (_ <? _)%nat; [by injection E2|done].
      - exfalso. assert (H : LNode n c ∈ m ++ LNode n c :: l2) by (apply elem_of_app; right; apply elem_of_list_here). rewrite <- E2 in H.
        destruct (_ <? _)%nat; [by apply elem_of_list_singleton in H|by apply elem_of_nil in H]. }
    destruct Ecat as [l2' Ecat]. rewrite <- (imap_const (print_node r spans (S level))) in Ecat.
    apply split_concat in Ecat as (k1 & k & k2 & a & b & Eks & Ek & El). rewrite imap_const in El.
    assert (Hk : k ∈ take 32 (kids spans p)) by (rewrite Eks; apply elem_of_app; right; apply elem_of_list_here).
    apply IH in Ek as [(-> & -> & ->)|(m & -> & (l0 & q & mid & -> & Hq & Hmid))].
    + exists level. split; [done|]. exists [], p, l1. split; [done|]. split; [by apply in_take, elem_of_kids in Hk|].
      intros m s Hm. rewrite El, app_nil_r in Hm. apply elem_of_concat_map in Hm as (k' & _ & Hm). apply print_node_nodes in Hm as (l & _ & _ & -> & _). lia.
    + exists m. split; [done|]. exists (LNode level p :: concat (map (print_node r spans (S level)) k1) ++ l0), q, mid. split; [|done]. rewrite El. cbn [app]. by rewrite <- app_assoc.
Qed.

Lemma indented lvl spans l1 n c l2 : debug_print lvl spans = l1 ++ LNode n c :: l2 ->
  (n = 0%nat /\ root_candidate spans c /\ exists l0 t i, l1 = l0 ++ [LHead t i]) \/
  (exists m l0 p mid, n = S m /\ l1 = l0 ++ LNode m p :: mid /\ child spans p c /\ forall k s, LNode k s ∈ mid -> (m < k)%nat).
Proof.
  destruct (decide (lvl = DebugLevel)) as [->|Hl].
  2:{ unfold debug_print. rewrite decide_False by done. by destruct l1. }
  rewrite debug_print_eq. destruct (candidates spans) as [|r0 rs] eqn:Ec; [by destruct l1|]. rewrite <- Ec. intros E.
  assert (Ecat : exists l2', concat (imap (fun idx root => LHead (s_trace r0) idx :: print_node 6 spans 0 root) (candidates spans)) = l1 ++ LNode n c :: l2').
  { apply app_eq_inv in E as [(m & E1 & E2)|(m & E1 & E2)].
    - destruct m as [|y m]; [by injection E2|injection E2 as <- E2; by exists m].
    - exfalso. assert (H : LNode n c ∈ m ++ LNode n c :: l2) by (apply elem_of_app; right; apply elem_of_list_here). rewrite <- E2 in H. by apply elem_of_list_singleton in H. }
  destruct Ecat as [l2' Ecat]. apply split_concat in Ecat as (k1 & k & k2 & a & b & Eks & Ek & El).
  destruct a as [|x a]; [by apply (f_equal head) in Ek|]. assert (Ex : LHead (s_trace r0) (length k1) = x) by (apply (f_equal head) in Ek; cbn [head app] in Ek; congruence).
  apply (f_equal tail) in Ek. cbn [tail app] in Ek. rewrite <- Ex in El.
  assert (Hk : root_candidate spans k) by (apply elem_of_candidates; rewrite Eks; apply elem_of_app; right; apply elem_of_list_here).
  apply print_node_indent in Ek as [(-> & -> & ->)|(m & -> & (l0 & q & mid & -> & Hq & Hmid))].
  - left. split; [done|]. split; [done|]. rewrite El. eauto.
  - right. eexists m, _, q, mid. split; [done|]. split; [|done]. rewrite El.
    change (LHead ?t ?i :: l0 ++ ?y) with ((LHead t i :: l0) ++ y). by rewrite app_assoc.
Qed.

Lemma silent lvl spans : debug_print lvl spans = [] <-> lvl <> DebugLevel \/ forall s, ~ root_candidate spans s.
Proof.
  destruct (decide (lvl = DebugLevel)) as [->|Hl].
  2:{ unfold debug_print. rewrite decide_False by done. tauto. }
  rewrite debug_print_eq. destruct (candidates spans) as [|r0 rs] eqn:Ec.
  - split; [|done]. intros _. right. intros s Hs. apply elem_of_candidates in Hs. rewrite Ec in Hs. by apply elem_of_nil in Hs.
  - split.
    + intros H. rewrite imap_cons in H. done.
    + intros [?|H]; [done|]. exfalso. apply (H r0). apply elem_of_candidates. rewrite Ec. apply elem_of_list_here.
Qed.

Lemma trace_NoDup ord now tr adds : map_order ord -> NoDup (ids (t_spans (add_all ord adds (new_tree now tr)))).
Proof. intros Ho. destruct (new_tree_ok now tr) as [H1 H2]. apply descending_NoDup. by apply (add_all_inv ord adds Ho). Qed.
Lemma once_trace ord now tr adds lvl : map_order ord -> NoDup (nodes (debug_print lvl (t_spans (add_all ord adds (new_tree now tr))))).
Proof. intros Ho. by apply printed_once, trace_NoDup. Qed.
Lemma size_trace ord now tr adds lvl : map_order ord ->
  let spans := t_spans (add_all ord adds (new_tree now tr)) in (length (debug_print lvl spans) <= 3 * length spans + 1)%nat.
Proof. intros Ho. by apply printed_size, trace_NoDup. Qed.
Lemma many_wrong : exists spans n k, LMany n k ∈ debug_print DebugLevel spans /\
  exists root, root_candidate spans root /\ kids spans root = take 33 (kids spans root) /\ k = 2 /\ length (drop 32 (kids spans root)) = 1%nat /\ n = 0%nat.
Proof.
  set (sp := fun id => Span id 1 9 [] [] 0 0 ∅ (Timings 0 0 0 0)). exists (map (fun i => sp (Z.of_nat i)) (rev (seq 1 34))), 0%nat, 2.
  split; [apply elem_of_list_In; vm_compute; tauto|]. exists (sp 1). split; [|by vm_compute]. split; [|by left]. apply elem_of_list_In. vm_compute. tauto.
Qed.
