(** Every step of [RaceModel] keeps the discipline (C92). *)
From Verif Require Import Base RaceSpec RaceProofs RaceModel RaceTheorems.
Local Open Scope nat_scope.
Implicit Types (tr : log) (o : place -> stat) (s : state) (h : hold).

Lemma put_same {A B} `{EqDecision A} (f : A -> B) a b : put f a b a = b.
Proof. unfold put. by rewrite decide_True. Qed.
Lemma put_other {A B} `{EqDecision A} (f : A -> B) a b a' : a' <> a -> put f a b a' = f a'.
Proof. intros H. unfold put. by rewrite decide_False. Qed.

Lemma recvs_snoc tr t (a : act) c : recvs c (tr ++ [(t, a)]) = recvs c tr + match a with ARecv c' => if decide (c = c') then 1 else 0 | _ => 0 end.
Proof. rewrite recvs_app. destruct a; cbn [recvs]; lia. Qed.
Lemma sends_snoc tr t (a : act) c : sends c (tr ++ [(t, a)]) = sends c tr + match a with ASend c' => if decide (c = c') then 1 else 0 | _ => 0 end.
Proof. rewrite sends_app. destruct a; cbn [sends]; lia. Qed.

(* ---------- channels ---------- *)

Lemma has_pop tr t c s msg q h x : s_queue s c = msg :: q -> has (counts (tr ++ [(t, ARecv c)])) (set_queue c q s) h x ->
  has (counts tr) s h x /\ h <> HM c (counts tr c).
Proof.
  intros E. destruct h as [u|c' n|m|p]; cbn [has]; try (by intros H; split; [exact H|]).
  intros (k & ms & H1 & -> & H2). cbn [set_queue s_queue] in H1. unfold counts in *. cbv beta in *. rewrite recvs_snoc.
  destruct (decide (c' = c)) as [->|Hn].
  - rewrite put_same in H1. split; [|intros [= K]; lia]. exists (S k), ms. rewrite E. split; [done|]. split; [lia|done].
  - rewrite put_other in H1 by done. split; [|by intros [=]]. exists k, ms. split; [done|]. split; [lia|done].
Qed.
Lemma refers_pop tr t c s msg q h x : s_queue s c = msg :: q -> refers (counts (tr ++ [(t, ARecv c)])) (set_queue c q s) h x -> refers (counts tr) s h x.
Proof.
  intros E. destruct h as [u|c' n|m|p]; cbn [refers]; try (by intros H; exact H).
  intros (k & ms & H1 & -> & H2). cbn [set_queue s_queue] in H1. unfold counts in *. cbv beta in *. rewrite recvs_snoc.
  destruct (decide (c' = c)) as [->|Hn].
  - rewrite put_same in H1. exists (S k), ms. rewrite E. split; [done|]. split; [lia|done].
  - rewrite put_other in H1 by done. exists k, ms. split; [done|]. split; [lia|done].
Qed.
Lemma first_has tr s c msg q x : s_queue s c = msg :: q -> x ∈ m_own msg -> has (counts tr) s (HM c (counts tr c)) x.
Proof. intros E Hx. exists 0, msg. rewrite E. split; [done|]. split; [lia|done]. Qed.
Lemma first_refers tr s c msg q x : s_queue s c = msg :: q -> x ∈ m_refs msg -> refers (counts tr) s (HM c (counts tr c)) x.
Proof. intros E Hx. exists 0, msg. rewrite E. split; [done|]. split; [lia|done]. Qed.
Lemma tidy_pop tr t c s msg q : s_queue s c = msg :: q -> tidy (counts tr) (fun c => sends c tr) s ->
  tidy (counts (tr ++ [(t, ARecv c)])) (fun c' => sends c' (tr ++ [(t, ARecv c)])) (set_queue c q s).
Proof.
  intros E []. split; try done. intros c'. cbn [set_queue s_queue]. unfold counts in *. cbv beta in *. rewrite recvs_snoc, sends_snoc.
  specialize (ti_count c'). cbv beta in ti_count. destruct (decide (c' = c)) as [->|Hn]; [rewrite put_same|by rewrite put_other; [lia|]]. rewrite E in ti_count. cbn [length] in ti_count. lia.
Qed.

Lemma has_push tr t c s msg h x : tidy (counts tr) (fun c => sends c tr) s -> has (counts (tr ++ [(t, ASend c)])) (set_queue c (s_queue s c ++ [msg]) s) h x ->
  has (counts tr) s h x \/ h = HM c (sends c tr) /\ x ∈ m_own msg.
Proof.
  intros Ht. destruct h as [u|c' n|m|p]; cbn [has]; try (by intros H; left; exact H).
  intros (k & ms & H1 & -> & H2). cbn [set_queue s_queue] in H1. unfold counts in *. cbv beta in *. rewrite recvs_snoc.
  destruct (decide (c' = c)) as [->|Hn].
  - rewrite put_same in H1. apply lookup_app_Some in H1 as [H1|[Hl H1]]; [left; exists k, ms; split; [done|]; split; [lia|done]|]. right.
    apply list_lookup_singleton_Some in H1 as [Hk <-]. split; [|done]. f_equal. pose proof (ti_count _ _ _ Ht c) as Hc. cbv beta in Hc. lia.
  - rewrite put_other in H1 by done. left. exists k, ms. split; [done|]. split; [lia|done].
Qed.
Lemma refers_push tr t c s msg h x : tidy (counts tr) (fun c => sends c tr) s -> refers (counts (tr ++ [(t, ASend c)])) (set_queue c (s_queue s c ++ [msg]) s) h x ->
  refers (counts tr) s h x \/ h = HM c (sends c tr) /\ x ∈ m_refs msg.
Proof.
  intros Ht. destruct h as [u|c' n|m|p]; cbn [refers]; try (by intros H; left; exact H).
  intros (k & ms & H1 & -> & H2). cbn [set_queue s_queue] in H1. unfold counts in *. cbv beta in *. rewrite recvs_snoc.
  destruct (decide (c' = c)) as [->|Hn].
  - rewrite put_same in H1. apply lookup_app_Some in H1 as [H1|[Hl H1]]; [left; exists k, ms; split; [done|]; split; [lia|done]|]. right.
    apply list_lookup_singleton_Some in H1 as [Hk <-]. split; [|done]. f_equal. pose proof (ti_count _ _ _ Ht c) as Hc. cbv beta in Hc. lia.
  - rewrite put_other in H1 by done. left. exists k, ms. split; [done|]. split; [lia|done].
Qed.
Lemma tidy_push tr t c s msg : tidy (counts tr) (fun c => sends c tr) s ->
  tidy (counts (tr ++ [(t, ASend c)])) (fun c' => sends c' (tr ++ [(t, ASend c)])) (set_queue c (s_queue s c ++ [msg]) s).
Proof.
  intros []. split; try done. intros c'. cbn [set_queue s_queue]. unfold counts in *. cbv beta in *. rewrite recvs_snoc, sends_snoc.
  specialize (ti_count c'). cbv beta in ti_count. destruct (decide (c' = c)) as [->|Hn]; [rewrite put_same, app_length; cbn [length]; lia|by rewrite put_other; [lia|]].
Qed.

(** Actions that are not channel operations. *)
Definition off_channel (a : act) : Prop := match a with ASend _ | ARecv _ => False | _ => True end.
Lemma counts_off tr t a c : off_channel a -> counts (tr ++ [(t, a)]) c = counts tr c.
Proof. intros H. unfold counts. rewrite recvs_snoc. destruct a; try done; lia. Qed.
Lemma has_off tr t a s h x : off_channel a -> has (counts (tr ++ [(t, a)])) s h x -> has (counts tr) s h x.
Proof. intros H. apply has_ext. intros c. by apply counts_off. Qed.
Lemma refers_off tr t a s h x : off_channel a -> refers (counts (tr ++ [(t, a)])) s h x -> refers (counts tr) s h x.
Proof. intros H. apply refers_ext. intros c. by apply counts_off. Qed.
Lemma tidy_off tr t a s : off_channel a -> tidy (counts tr) (fun c => sends c tr) s -> tidy (counts (tr ++ [(t, a)])) (fun c => sends c (tr ++ [(t, a)])) s.
Proof. intros H. apply tidy_ext; intros c; [by rewrite counts_off|]. rewrite sends_snoc. destruct a; try done; lia. Qed.

(** Sending: [P] passes to the message or becomes finished. *)
Lemma good_send tr o s s1 t c own (P : place -> Prop) `{forall x, Decision (P x)} v :
  good tr o s -> (forall x, P x -> o x = Owned (HT t)) -> v = Shared /\ own = [] \/ v = Owned (HM c (sends c tr)) ->
  (forall x, x ∈ own -> P x) -> s_next s1 = s_next s -> s_queue s1 = s_queue s -> tidy (counts tr) (fun c => sends c tr) s1 ->
  (forall h1 x, has (counts tr) s1 h1 x -> has (counts tr) s h1 x /\ (h1 = HT t -> ~ P x)) ->
  (forall h1 x, refers (counts tr) s1 h1 x -> P x /\ v = Shared /\ h1 = HT t \/ refers (counts tr) s h1 x) ->
  good (tr ++ [(t, ASend c)]) (mv P v o) (send t c own s1).2.
Proof.
  intros G HP Hv Hown Hn Hq Ht Hh Hr. cbn [send snd]. eapply (good_sync _ _ _ _ _ _ _ _ (HT t)); [done|done|done| | | | |].
  - destruct Hv as [[-> _]| ->]; [by left|]. right. exists (HM c (sends c tr)). by split.
  - intros h1 x Hx0. destruct (has_push _ _ _ _ _ _ _ Ht Hx0) as [Hx|[-> Hx]].
    + right. by apply Hh.
    + destruct Hv as [[_ ->]| ->]; [by apply elem_of_nil in Hx|]. left. split; [by apply Hown|done].
  - intros h1 x Hx0. destruct (refers_push _ _ _ _ _ _ _ Ht Hx0) as [Hx|[-> Hx]].
    + destruct (Hr _ _ Hx) as [(Hp & -> & ->)|Ho]; [left; split; [done|]; split; [done|by left]|]. right. exists h1. by split; [|left].
    + cbn [m_refs] in Hx. destruct (Hr (HT t) x (or_introl Hx)) as [(Hp & -> & _)|Ho]; [left; split; [done|]; split; [done|by right]|]. right. exists (HT t). by split; [|right].
  - cbn [set_queue s_next]. lia.
  - by apply tidy_push.
Qed.

(** Receiving: what the message owns passes to the goroutine. *)
Lemma good_recv tr o s s1 t c msg q :
  good tr o s -> s_queue s c = msg :: q -> s_next s1 = s_next s -> s_queue s1 = s_queue s -> tidy (counts tr) (fun c => sends c tr) s1 ->
  (forall h1 x, has (counts tr) s1 h1 x -> has (counts tr) s h1 x \/ h1 = HT t /\ x ∈ m_own msg) ->
  (forall h1 x, refers (counts tr) s1 h1 x -> refers (counts tr) s h1 x \/ h1 = HT t /\ x ∈ m_refs msg) ->
  good (tr ++ [(t, ARecv c)]) (mv (fun x => x ∈ m_own msg) (Owned (HT t)) o) (set_queue c q s1).
Proof.
  intros G Eq Hn Hq Ht Hh Hr. eapply (good_sync _ _ _ _ _ _ _ _ (HM c (counts tr c))); [done|done| | | | | |].
  - intros x Hx. apply (gd_has _ _ _ G). by eapply first_has.
  - right. exists (HT t). split; [done|]. by split.
  - intros h1 x Hx. apply (has_pop _ _ _ _ msg) in Hx as [Hx Hne]; [|by rewrite Hq]. destruct (Hh _ _ Hx) as [Ho|[-> Ho]]; [right; by split|by left].
  - intros h1 x Hx. apply (refers_pop _ _ _ _ msg) in Hx; [|by rewrite Hq]. right. destruct (Hr _ _ Hx) as [Ho|[-> Ho]]; [exists h1; by split; [|left]|].
    exists (HM c (counts tr c)). split; [by eapply first_refers|]. right. by split.
  - cbn [set_queue s_next]. lia.
  - apply (tidy_pop _ _ _ _ msg); [by rewrite Hq|done].
Qed.
