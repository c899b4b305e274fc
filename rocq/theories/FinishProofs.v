(** Proofs for C36-C45: refinement of the buffer by the record of the run. *)
From Coq Require Import Sorted.
From Verif Require Import Base IdModel SpanModel TreeModel TreeSpec TreeProofs CorrectProofs RootProofs FinishModel FinishSpec.

(* ---------- one trace ---------- *)

Lemma map_order_list : map_order map_to_list.
Proof. intros m. reflexivity. Qed.

Lemma add_span_ord ord now new t : map_order ord -> add_span ord now new t = add_span map_to_list now new t.
Proof.
  intros Ho. unfold add_span. destruct (get_span_ref _ _); [|done]. f_equal. apply list_alter_ext; [|done].
  intros s _. by rewrite (merge_spec ord), (merge_spec map_to_list) by (done || apply map_order_list).
Qed.

Definition adds (a : list addition) : list (Z * span) := map (fun a => (a.1.2, a.2)) a.
Definition tree_at (t : Z) (a : list addition) : option tree :=
  match a with [] => None | (n0, _, _) :: _ => Some (add_all map_to_list (adds a) (new_tree n0 t)) end.

Lemma add_all_snoc ord l n s t : add_all ord (l ++ [(n, s)]) t = add_span ord n s (add_all ord l t).
Proof. unfold add_all. by rewrite foldl_app. Qed.

Lemma add_span_fields ord n s t : t_id (add_span ord n s t) = t_id t /\ t_started (add_span ord n s t) = t_started t /\ t_updated (add_span ord n s t) = n.
Proof. unfold add_span. by destruct (get_span_ref _ _). Qed.

Lemma add_all_started ord l : forall t, t_id (add_all ord l t) = t_id t /\ t_started (add_all ord l t) = t_started t.
Proof.
  induction l as [|[n s] l IH] using rev_ind; intros t; [done|]. rewrite add_all_snoc. destruct (add_span_fields ord n s (add_all ord l t)) as (-> & -> & _). apply IH.
Qed.

Lemma add_all_spans l : forall t u, t_spans t = t_spans u -> t_spans (add_all map_to_list l t) = t_spans (add_all map_to_list l u).
Proof.
  induction l as [|[n s] l IH] using rev_ind; intros t u E; [done|]. rewrite !add_all_snoc. unfold add_span.
  rewrite (IH t u E). by destruct (get_span_ref _ _).
Qed.

Lemma tree_at_fields t a tr : tree_at t a = Some tr ->
  t_id tr = t /\ t_spans tr = merged_spans t a /\ t_count tr = counted t a /\ t_started tr = started a /\ t_updated tr = touched a /\
  descending (ids (t_spans tr)) /\ a <> [].
Proof.
  intros H. assert (Hne : a <> []) by (by destruct a). assert (exists n0, started a = n0 /\ tr = add_all map_to_list (adds a) (new_tree n0 t)) as (n0 & En & ->).
  { unfold tree_at in H. destruct a as [|[[n0 n1] s] a]; [done|]. injection H as <-. by exists n0. }
  clear H. destruct (tree_contents map_to_list n0 t (adds a) map_order_list) as (T1 & _ & _ & _ & T5).
  assert (Es : t_spans (add_all map_to_list (adds a) (new_tree n0 t)) = merged_spans t a) by (by apply add_all_spans).
  destruct (add_all_started map_to_list (adds a) (new_tree n0 t)) as [F1 F2].
  split; [done|]. split; [done|]. split; [by rewrite T5, Es|]. split; [by rewrite F2|]. split; [|done]. clear T1 T5 Es F1 F2 En.
  destruct a as [|x a _] using rev_ind; [done|]. destruct x as [[m0 m1] s]. unfold adds. rewrite map_app. cbn [map]. rewrite add_all_snoc.
  destruct (add_span_fields map_to_list m1 s (add_all map_to_list (map (fun a0 : Z * Z * span => (a0.1.2, a0.2)) a) (new_tree n0 t))) as (_ & _ & E).
  cbn [fst snd]. etransitivity; [exact E|]. unfold touched. by rewrite last_snoc.
Qed.

Lemma tree_at_snoc t a n0 n1 s : tree_at t (a ++ [(n0, n1, s)]) =
  Some (add_span map_to_list n1 s (match tree_at t a with Some tr => tr | None => new_tree n0 t end)).
Proof.
  unfold tree_at. destruct a as [|[[m0 m1] s'] a]; [done|]. cbn [app]. f_equal. rewrite app_comm_cons. unfold adds. rewrite map_app. cbn [map fst snd].
  by rewrite add_all_snoc.
Qed.

(** Traces and times of the merged spans. *)
Lemma merged_forall (P : span -> Prop) t a : Forall (fun a => P a.2) a ->
  (forall s new, P s -> P new -> P (updated_span s new)) -> Forall P (merged_spans t a).
Proof.
  intros Ha HP. unfold merged_spans. fold (adds a). induction a as [|[[n0 n1] s] a IH] using rev_ind; [constructor|].
  apply Forall_app in Ha as [Ha Hs]. rewrite Forall_singleton in Hs. cbn in Hs. specialize (IH Ha).
  unfold adds. rewrite map_app. cbn [map fst snd]. fold (adds a). rewrite add_all_snoc.
  destruct (tree_contents map_to_list 0 t (adds a) map_order_list) as (T1 & _).
  destruct (add_span_cases map_to_list n1 s (add_all map_to_list (adds a) (new_tree 0 t)) map_order_list T1) as [(l1 & l2 & E1 & _ & E2 & _)|(l1 & x & l2 & E1 & _ & E2 & _)].
  - rewrite E2. cbn [t_spans]. rewrite E1 in IH. apply Forall_app in IH as [I1 I2]. apply Forall_app. split; [done|]. constructor; [exact Hs|exact I2].
  - rewrite E2. cbn [t_spans]. rewrite E1 in IH. apply Forall_app in IH as [I1 I2]. apply Forall_cons in I2 as [I2 I3]. apply Forall_app. split; [done|].
    constructor; [|done]. by apply HP.
Qed.

(* ---------- what happens to a finished trace ---------- *)

Lemma unique_root_index spans root : NoDup (ids spans) -> root_candidate spans root -> (forall r, root_candidate spans r -> r = root) ->
  exists i, roots spans = [i] /\ spans !! i = Some root.
Proof.
  intros Hn Hr Hu. assert (Hin : root ∈ spans) by (by destruct Hr). apply elem_of_list_lookup in Hin as [i Hi]. exists i. split; [|done].
  assert (Hi' : i ∈ roots spans) by (apply roots_exact; eauto).
  assert (Hone : forall j, j ∈ roots spans -> j = i).
  { intros j Hj. apply roots_exact in Hj as (s & Hj & Hs). apply Hu in Hs as ->. by apply (same_index spans Hn _ _ root). }
  pose proof (roots_NoDup spans) as Hnr. destruct (roots spans) as [|j [|k l]]; [by apply elem_of_nil in Hi'| |].
  - f_equal. apply Hone, elem_of_list_here.
  - exfalso. apply NoDup_cons in Hnr as [Hni _]. apply Hni.
    rewrite (Hone j) by apply elem_of_list_here. rewrite (Hone k) by apply elem_of_list_further, elem_of_list_here. apply elem_of_list_here.
Qed.

Lemma one_root spans i : roots spans = [i] -> exists root, spans !! i = Some root /\ root_candidate spans root /\ forall r, root_candidate spans r -> r = root.
Proof.
  intros E. assert (Hi : i ∈ roots spans) by (rewrite E; apply elem_of_list_here). apply roots_exact in Hi as (root & Hi & Hr).
  exists root. split; [done|]. split; [done|]. intros r Hr'. assert (Hin : r ∈ spans) by (by destruct Hr'). apply elem_of_list_lookup in Hin as [j Hj].
  assert (Hj' : j ∈ roots spans) by (apply roots_exact; eauto). rewrite E in Hj'. apply elem_of_list_singleton in Hj' as ->. congruence.
Qed.

Lemma many_roots spans c c' : root_candidate spans c -> root_candidate spans c' -> c <> c' -> (1 < length (roots spans))%nat.
Proof.
  intros H H' Hne. apply elem_of_candidates in H, H'. rewrite <- candidates_length.
  destruct (candidates spans) as [|a [|b l]]; [by apply elem_of_nil in H| |cbn; lia].
  apply elem_of_list_singleton in H as ->. by apply elem_of_list_singleton in H' as ->.
Qed.

Lemma two_roots spans : NoDup (ids spans) -> (1 < length (roots spans))%nat -> exists c c', root_candidate spans c /\ root_candidate spans c' /\ c <> c'.
Proof.
  intros Hn Hl. pose proof (candidates_NoDup spans Hn) as Hc. rewrite <- candidates_length in Hl.
  destruct (candidates spans) as [|a [|b l]] eqn:E; cbn in Hl; [lia..|]. exists a, b.
  split; [apply elem_of_candidates; rewrite E; apply elem_of_list_here|].
  split; [apply elem_of_candidates; rewrite E; apply elem_of_list_further, elem_of_list_here|].
  apply NoDup_cons in Hc as [Hab _]. intros ->. apply Hab, elem_of_list_here.
Qed.

Lemma emission_of t spans all ri fuel : NoDup (ids all) -> Forall (fun s => int64_ok (s_ts s)) all -> roots all = [ri] ->
  (all = spans \/ exists f, injected t spans f /\ all ≡ₚ f :: spans) -> (length all <= fuel)%nat ->
  exists out seen, correct fuel all ri None 0 = Some (out, seen) /\ emission t spans out.
Proof.
  intros Hn Hok Hr Hall Hf. destruct (one_root _ _ Hr) as (root & Hi & Hc & Hu).
  destruct (correct_whole all ri root fuel) as (out & seen & E & Hl & _ & _ & H1 & H2); try done.
  destruct (correct_all all ri root fuel) as (out' & seen' & E' & H3); try done. rewrite E in E'. injection E' as <- <-.
  exists out, seen. split; [done|]. by exists all, root.
Qed.

Lemma root_candidate_perm l l' s : l ≡ₚ l' -> root_candidate l s -> root_candidate l' s.
Proof.
  intros Hp [H1 H2]. assert (Hids : ids l ≡ₚ ids l') by (by apply Permutation_map). split; [by rewrite <- Hp|]. destruct H2 as [H2|H2]; [by left|right]. by rewrite <- Hids.
Qed.

Lemma finish_decide ord now t tr : map_order ord -> descending (ids (t_spans tr)) ->
  Forall (fun s => s_trace s = t) (t_spans tr) -> Forall (fun s => int64_ok (s_ts s)) (t_spans tr) ->
  let '(tr', rs) := find_roots ord now tr in
  match rs with
  | [r] => exists out seen, correct (length (t_spans tr')) (t_spans tr') r None 0 = Some (out, seen) /\ emission t (t_spans tr) out
  | _ => ~ exists out, emission t (t_spans tr) out
  end.
Proof.
  intros Ho Hd Ht Hok. pose proof (descending_NoDup _ Hd) as Hn.
  pose proof (find_roots_spec ord now tr Ho Hd Hn) as H. cbv zeta in H. destruct (find_roots ord now tr) as [tr' rs] eqn:EF.
  destruct H as (Hrs & [(-> & Hneg)|(P & _ & _ & _ & _ & Hlen & HP & _)]).
  - assert (Hno : (forall i, rs <> [i]) -> ~ exists out, emission t (t_spans tr) out).
    { intros Hne (out & all & root & [->|(f & Hf & Hall)] & Hr & Hu & _).
      - destruct (unique_root_index _ _ Hn Hr Hu) as (i & Hi & _). apply (Hne i). congruence.
      - destruct Hf as (_ & _ & _ & _ & c & c' & Hc & Hc' & Hcc & Hpar). apply Hneg. split; [by apply (many_roots _ c c')|]. eauto. }
    destruct rs as [|r [|r' rs]]; [by apply Hno| |by apply Hno].
    destruct (emission_of t (t_spans tr) (t_spans tr) r (length (t_spans tr))) as (out & seen & E & Hem); try done; [by left|]. by exists out, seen.
  - destruct (injected_root ord now tr t P) as (tr'' & rs' & first & last & f & EF' & Ef & (l & Hh & Hl) & HPn & Hp & Hd' & Hin & Hout); try done.
    rewrite EF in EF'. injection EF' as <- <-.
    assert (Hinj : injected t (t_spans tr) f).
    { rewrite Ef. split; [by exists first, last, l|]. split; [done|]. split; [done|]. split; [done|]. destruct (two_roots _ Hn Hlen) as (c & c' & Hc & Hc' & Hne). by exists c, c'. }
    destruct (decide (t ∈ ids (t_spans tr))) as [HT|HT].
    + rewrite (Hout HT). intros (out & all & root & [->|(g & Hg & Hall)] & Hr & Hu & _).
      * destruct (unique_root_index _ _ Hn Hr Hu) as (i & Hi & _). rewrite Hi in Hlen. cbn in Hlen. lia.
      * apply (root_candidate_perm _ _ _ Hall) in Hr. destruct Hg as (_ & _ & Hgp & Hgn & c & c' & Hc & Hc' & _ & Hpar).
        apply (candidates_after [] (t_spans tr) g (s_id g)) in Hr; [|done..]. destruct Hr as [_ [Hr|Hr]]; rewrite Hgp in Hr; [|done].
        apply Hgn. by rewrite <- Hr.
    + destruct (Hin HT) as (i & -> & Hi).
      destruct (emission_of t (t_spans tr) (t_spans tr') i (length (t_spans tr'))) as (out & seen & E & Hem); try done.
      * by apply descending_NoDup.
      * rewrite Hp. constructor; [|done]. rewrite Ef. cbn [s_ts]. destruct Hh as ((s & Hs & <-) & _). rewrite Forall_forall in Hok. apply Hok.
        apply Hl in Hs. by destruct Hs.
      * right. by exists f.
      * by exists out, seen.
Qed.
