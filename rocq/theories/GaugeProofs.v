(** Proofs about the counters and gauges of the cache (C78). *)
From Verif Require Import Base LruModel LruSpec LruProofs CacheProofs GaugeModel GaugeSpec.

(* ---------- sums ---------- *)

Lemma sum_of_app f a b : sum_of f (a ++ b) = sum_of f a + sum_of f b.
Proof. unfold sum_of. induction a as [|e a IH]; cbn [app foldr]; lia. Qed.
Lemma sum_of_one f e : sum_of f [e] = f e.
Proof. unfold sum_of. cbn [foldr]. lia. Qed.
Lemma sum_of_nonneg f l : (forall e, 0 <= f e) -> 0 <= sum_of f l.
Proof. intros Hf. unfold sum_of. induction l as [|e l IH]; cbn [foldr]; [lia|]. specialize (Hf e). lia. Qed.

Definition msum {A} (f : A -> Z) (m : gmap nat A) : Z := foldr (fun p n => f p.2 + n) 0 (map_to_list m).

Lemma msum_perm {A} (f : A -> Z) (l l' : list (nat * A)) : l ≡ₚ l' -> foldr (fun p n => f p.2 + n) 0 l = foldr (fun p n => f p.2 + n) 0 l'.
Proof. induction 1; cbn [foldr]; lia. Qed.
Lemma msum_insert {A} (f : A -> Z) m i x : m !! i = None -> msum f (<[i := x]> m) = f x + msum f m.
Proof. intros H. unfold msum. rewrite (msum_perm f _ _ (map_to_list_insert m i x H)). done. Qed.
Lemma msum_delete {A} (f : A -> Z) m i x : m !! i = Some x -> msum f m = f x + msum f (delete i m).
Proof. intros H. rewrite <- (insert_delete m i x H) at 1. apply msum_insert, lookup_delete. Qed.
Lemma msum_empty {A} (f : A -> Z) : msum f ∅ = 0.
Proof. unfold msum. by rewrite map_to_list_empty. Qed.
Lemma msum_nonneg {A} (f : A -> Z) (m : gmap nat A) : (forall i x, m !! i = Some x -> 0 <= f x) -> 0 <= msum f m.
Proof.
  unfold msum. intros H. assert (H' : forall p, p ∈ map_to_list m -> 0 <= f p.2) by (intros [i x] Hp; by apply (H i), elem_of_map_to_list). clear H.
  induction (map_to_list m) as [|p l IH]; cbn [foldr]; [lia|]. pose proof (H' p ltac:(by left)). assert (0 <= foldr (fun p n => f p.2 + n) 0 l); [|lia].
  apply IH. intros q Hq. apply H'. by right.
Qed.
Lemma msum_zero {A} (f : A -> Z) (m : gmap nat A) : (forall x, 0 < f x) -> msum f m = 0 -> m = ∅.
Proof.
  unfold msum. intros Hf H. apply map_to_list_empty_iff. destruct (map_to_list m) as [|p l]; [done|]. cbn [foldr] in H. exfalso.
  assert (0 <= foldr (fun p n => f p.2 + n) 0 l) by (clear -Hf; induction l as [|q l IH]; cbn [foldr]; [lia|]; specialize (Hf q.2); lia).
  specialize (Hf p.2). lia.
Qed.

(* ---------- the invariant ---------- *)

Definition hits_due (b : bool) : Z := if b then 1 else 0.
Definition misses_due (b : bool) : Z := if b then 0 else 1.

Definition GI (log : list gentry) (g : gworld) : Prop :=
  found log = counted true log + msum hits_due (g_due g) /\
  missed log = counted false log + msum misses_due (g_due g) /\
  begun log = ended log + msum (fun _ => 1) (g_reading g) /\
  0 <= g_hit g /\ 0 <= g_miss g /\ (forall i h, g_reading g !! i = Some h -> 0 <= h) /\
  (counted true log < 2^64 -> counted true log = reported_hits log + msum (fun h => h) (g_reading g) + g_hit g) /\
  (counted false log < 2^64 -> counted false log = reported_misses log + g_miss g) /\
  0 <= reported_hits log /\ 0 <= reported_misses log.

Lemma GI_new limit : GI [] (new_gworld limit).
Proof.
  unfold GI, new_gworld; cbn [g_hit g_miss g_due g_reading]. rewrite !msum_empty.
  change (found []) with 0. change (missed []) with 0. change (begun []) with 0. change (ended []) with 0.
  change (counted true []) with 0. change (counted false []) with 0. change (reported_hits []) with 0. change (reported_misses []) with 0.
  split_and!; try lia. by intros i h H; rewrite lookup_empty in H.
Qed.

Ltac one := unfold found, missed, counted, begun, ended, reported_hits, reported_misses in *; rewrite ?sum_of_app, ?sum_of_one.

Ltac eqbs := change (if Bool.eqb true true then 1 else 0) with 1; change (if Bool.eqb false true then 1 else 0) with 0;
  change (if Bool.eqb true false then 1 else 0) with 0; change (if Bool.eqb false false then 1 else 0) with 1.

Lemma GI_step fuel log g s g' o : GI log g -> gstep_run fuel g s = Some (Some (g', o)) -> GI (log ++ o) g'.
Proof.
  intros HG E. pose proof HG as (H1 & H2 & H3 & H4 & H5 & H6 & H7 & H8 & H9 & H10).
  assert (Hsame : forall w, GI (log ++ []) (GWorld w (g_hit g) (g_miss g) (g_due g) (g_reading g))) by (intros w; rewrite app_nil_r; exact HG).
  destruct s as [s|tid|rid|rid| |]; cbn [gstep_run] in E.
  - destruct (match s with LookupGet tid _ _ | LookupSet tid => _ | _ => _ end) eqn:Ea; [|done].
    destruct (wstep_run fuel (g_world g) s) as [[[w ow]| |]|]; try done.
    destruct s as [bs|bs|r bs|tid r copy|tid]; try (injection E as <- <-; by apply Hsame).
    apply bool_decide_eq_true in Ea. destruct (looked_up (g_world g) r ow) as [b|]; [|injection E as <- <-; by apply Hsame].
    injection E as <- <-. unfold GI. cbn [g_hit g_miss g_due g_reading]. rewrite !(msum_insert _ _ _ _ Ea).
    destruct b; cbn [hits_due misses_due]; one; split_and!; try done; try lia; intros Hc; specialize (H7); specialize (H8); lia.
  - destruct (g_due g !! tid) as [[|]|] eqn:Ed; [| |done]; injection E as <- <-; unfold GI; cbn [g_hit g_miss g_due g_reading];
      rewrite (msum_delete hits_due _ _ _ Ed) in H1; rewrite (msum_delete misses_due _ _ _ Ed) in H2; cbn [hits_due misses_due] in *.
    + pose proof (msum_nonneg (fun h => h) (g_reading g) H6) as Hm. one. eqbs. split_and!; try done; try lia.
      * unfold u64. apply Z.mod_pos_bound. lia.
      * intros Hc. unfold u64. rewrite Z.mod_small; [|p2; lia]. lia.
    + one. eqbs. split_and!; try done; try lia.
      * unfold u64. apply Z.mod_pos_bound. lia.
      * intros Hc. unfold u64. rewrite Z.mod_small; [|p2; lia]. lia.
  - destruct (decide _) as [Hr|]; [|done]. injection E as <- <-. unfold GI. cbn [g_hit g_miss g_due g_reading]. rewrite !(msum_insert _ _ _ _ Hr).
    one. split_and!; try done; try lia.
    intros i h. destruct (decide (i = rid)) as [->|Hne]; [rewrite lookup_insert; intros [= <-]; lia|rewrite lookup_insert_ne by done; apply H6].
  - destruct (g_reading g !! rid) as [h|] eqn:Er; [|done]. injection E as <- <-. unfold GI. cbn [g_hit g_miss g_due g_reading].
    rewrite (msum_delete _ _ _ _ Er) in H3. rewrite (msum_delete (fun h => h) _ _ _ Er) in H7. pose proof (H6 _ _ Er).
    one. split_and!; try done; try lia.
    intros i h'. rewrite lookup_delete_Some. intros [_ Hi]. by apply (H6 i).
  - injection E as <- <-. unfold GI. one. split_and!; try done; try lia; intros Hc; lia.
  - injection E as <- <-. unfold GI. one. split_and!; try done; try lia; intros Hc; lia.
Qed.

Lemma GI_run fuel l : forall log g g' o, GI log g -> grun fuel g l = Some (Some (g', o)) -> GI (log ++ o) g'.
Proof.
  induction l as [|s l IH]; intros log g g' o HG E; cbn [grun] in E; [injection E as <- <-; by rewrite app_nil_r|].
  destruct (gstep_run fuel g s) as [[[g1 o1]|]|] eqn:E1; try done. destruct (grun fuel g1 l) as [[[g2 o2]|]|] eqn:E2; try done.
  injection E as <- <-. rewrite app_assoc. eapply IH; [|done]. by eapply GI_step.
Qed.

Lemma grun_app fuel l1 l2 : forall g g1 o1, grun fuel g l1 = Some (Some (g1, o1)) ->
  grun fuel g (l1 ++ l2) = match grun fuel g1 l2 with Some (Some (g2, o2)) => Some (Some (g2, o1 ++ o2)) | x => x end.
Proof.
  induction l1 as [|s l1 IH]; intros g g1 o1 E; cbn [grun app] in *.
  - injection E as <- <-. by destruct (grun fuel g l2) as [[[? ?]|]|].
  - destruct (gstep_run fuel g s) as [[[g' o']|]|]; try done. destruct (grun fuel g' l1) as [[[g'' o'']|]|] eqn:E1; try done.
    injection E as <- <-. rewrite (IH _ _ _ E1). destruct (grun fuel g'' l2) as [[[? ?]|]|]; try done. by rewrite app_assoc.
Qed.

(** Each step records at most one entry. *)
Lemma gstep_short fuel g s g' o : gstep_run fuel g s = Some (Some (g', o)) -> (length o <= 1)%nat.
Proof.
  destruct s as [s|tid|rid|rid| |]; cbn [gstep_run]; intros E.
  - destruct (match s with LookupGet tid _ _ | LookupSet tid => _ | _ => _ end); [|done].
    destruct (wstep_run fuel (g_world g) s) as [[[w ow]| |]|]; try done.
    destruct s as [bs|bs|r bs|tid r copy|tid]; try (injection E as _ <-; cbn; lia).
    destruct (looked_up (g_world g) r ow) as [b|]; injection E as _ <-; cbn; lia.
  - destruct (g_due g !! tid) as [[|]|]; [| |done]; injection E as _ <-; cbn; lia.
  - destruct (decide _); [|done]. injection E as _ <-; cbn; lia.
  - destruct (g_reading g !! rid); [|done]. injection E as _ <-; cbn; lia.
  - injection E as _ <-; cbn; lia.
  - injection E as _ <-; cbn; lia.
Qed.

Lemma grun_short fuel l : forall g g' o, grun fuel g l = Some (Some (g', o)) -> (length o <= length l)%nat.
Proof.
  induction l as [|s l IH]; intros g g' o E; cbn [grun] in E; [injection E as _ <-; cbn; lia|].
  destruct (gstep_run fuel g s) as [[[g1 o1]|]|] eqn:E1; try done. destruct (grun fuel g1 l) as [[[g2 o2]|]|] eqn:E2; try done.
  injection E as _ <-. apply gstep_short in E1. apply IH in E2. rewrite app_length. cbn [length]. lia.
Qed.

Lemma counted_short b log : counted b log <= Z.of_nat (length log).
Proof.
  unfold counted, sum_of. induction log as [|e log IH]; cbn [foldr length]; [lia|].
  assert (match e with ECounted c => if Bool.eqb b c then 1 else 0 | _ => 0 end <= 1) by (destruct e as [| |c| | | |]; try lia; by destruct (Bool.eqb b c)). lia.
Qed.

(* ---------- C78 ---------- *)

Lemma counted_once limit fuel steps g log rid : grun fuel (new_gworld limit) steps = Some (Some (g, log)) ->
  Z.of_nat (length steps) < 2^64 -> quiet log ->
  exists g' h m, grun fuel (new_gworld limit) (steps ++ [GSwapHit rid; GSwapMiss rid]) = Some (Some (g', log ++ [ESwapped h; ERate h m])) /\
    reported_hits log + h = found log /\ reported_misses log + m = missed log.
Proof.
  intros E Hn [Q1 Q2]. pose proof (GI_run fuel steps [] _ _ _ (GI_new limit) E) as (H1 & H2 & H3 & H4 & H5 & H6 & H7 & H8 & _). cbn [app] in *.
  apply grun_short in E as Hs. pose proof (counted_short true log). pose proof (counted_short false log).
  assert (Er : g_reading g = ∅) by (apply (msum_zero (fun _ => 1)); [lia|lia]).
  assert (Hd : 0 <= msum hits_due (g_due g) /\ 0 <= msum misses_due (g_due g)) by (split; apply msum_nonneg; intros _ [|] _; cbn; lia).
  rewrite (grun_app _ _ _ _ _ _ E). cbn [grun gstep_run]. rewrite Er, decide_True by apply lookup_empty. cbn [g_reading]. rewrite lookup_insert. cbn [app g_miss].
  exists (GWorld (g_world g) 0 0 (g_due g) (delete rid (<[rid := g_hit g]> ∅))), (g_hit g), (g_miss g). split; [done|].
  rewrite Er, msum_empty in H7. lia.
Qed.

Lemma never_more limit fuel steps g log : grun fuel (new_gworld limit) steps = Some (Some (g, log)) -> Z.of_nat (length steps) < 2^64 ->
  0 <= reported_hits log <= found log /\ 0 <= reported_misses log <= missed log.
Proof.
  intros E Hn. pose proof (GI_run fuel steps [] _ _ _ (GI_new limit) E) as (H1 & H2 & H3 & H4 & H5 & H6 & H7 & H8 & H9 & H10). cbn [app] in *.
  apply grun_short in E as Hs. pose proof (counted_short true log). pose proof (counted_short false log).
  assert (Hd : 0 <= msum hits_due (g_due g) /\ 0 <= msum misses_due (g_due g)) by (split; apply msum_nonneg; intros _ [|] _; cbn; lia).
  pose proof (msum_nonneg (fun h => h) (g_reading g) H6). lia.
Qed.

(** What the counters hold after an entry. *)
Definition follow (e : gentry) (hm : Z * Z) : Z * Z :=
  match e with
  | ECounted true => (u64 (hm.1 + 1), hm.2)
  | ECounted false => (hm.1, u64 (hm.2 + 1))
  | ESwapped _ => (0, hm.2)
  | ERate _ _ => (hm.1, 0)
  | _ => hm
  end.

Lemma follow_step fuel g s g' o : gstep_run fuel g s = Some (Some (g', o)) -> (g_hit g', g_miss g') = foldl (fun hm e => follow e hm) (g_hit g, g_miss g) o /\
  (forall a h, o = [ESwapped h] -> a = h -> h = g_hit g) /\ (forall h m, o = [ERate h m] -> m = g_miss g).
Proof.
  destruct s as [s|tid|rid|rid| |]; cbn [gstep_run]; intros E.
  - destruct (match s with LookupGet tid _ _ | LookupSet tid => _ | _ => _ end); [|done].
    destruct (wstep_run fuel (g_world g) s) as [[[w ow]| |]|]; try done.
    destruct s as [bs|bs|r bs|tid r copy|tid]; try (injection E as <- <-; done).
    destruct (looked_up (g_world g) r ow) as [[|]|]; injection E as <- <-; done.
  - destruct (g_due g !! tid) as [[|]|]; [| |done]; injection E as <- <-; done.
  - destruct (decide _); [|done]. injection E as <- <-. split; [done|]. split; [by intros a h [= <-] _|done].
  - destruct (g_reading g !! rid); [|done]. injection E as <- <-. split; [done|]. split; [done|]. by intros h m [= _ <-].
  - injection E as <- <-. done.
  - injection E as <- <-. done.
Qed.

Lemma follow_run fuel l : forall g g' o, grun fuel g l = Some (Some (g', o)) ->
  (g_hit g', g_miss g') = foldl (fun hm e => follow e hm) (g_hit g, g_miss g) o /\
  (forall a h b, o = a ++ ESwapped h :: b -> h = (foldl (fun hm e => follow e hm) (g_hit g, g_miss g) a).1) /\
  (forall a h m b, o = a ++ ERate h m :: b -> m = (foldl (fun hm e => follow e hm) (g_hit g, g_miss g) a).2).
Proof.
  induction l as [|s l IH]; intros g g' o E; cbn [grun] in E.
  { injection E as <- <-. split; [done|]. split; intros [|? ?]; discriminate. }
  destruct (gstep_run fuel g s) as [[[g1 o1]|]|] eqn:E1; try done. destruct (grun fuel g1 l) as [[[g2 o2]|]|] eqn:E2; try done.
  injection E as <- <-. destruct (IH _ _ _ E2) as (I1 & I2 & I3). pose proof (gstep_short _ _ _ _ _ E1) as Hs. apply follow_step in E1 as (F1 & F2 & F3).
  rewrite F1 in I1, I2, I3. split; [by rewrite foldl_app|].
  destruct o1 as [|e [|? ?]]; [done| |cbn in Hs; lia]. cbn [app foldl] in *. split.
  - intros [|x a] h b Eo; injection Eo as -> Eo; [by apply (F2 h h)|]. cbn [foldl]. by eapply I2.
  - intros [|x a] h m b Eo; injection Eo as -> Eo; [by apply (F3 h m)|]. cbn [foldl]. by eapply I3.
Qed.

Lemma follow_calm l hm : calm l -> foldl (fun hm e => follow e hm) hm l = hm.
Proof. intros H. revert hm. induction H as [|e l He _ IH]; intros hm; [done|]. cbn [foldl]. rewrite IH. by destruct e. Qed.

Lemma follow_counts l : no_reading l -> forall h m, 0 <= h -> 0 <= m -> h + counted true l < 2^64 -> m + counted false l < 2^64 ->
  foldl (fun hm e => follow e hm) (h, m) l = (h + counted true l, m + counted false l).
Proof.
  unfold counted, sum_of. induction 1 as [|e l He Hl IH]; intros h m Hh Hm Bh Bm; cbn [foldl foldr] in *; [f_equal; lia|].
  assert (Hp : forall b, 0 <= sum_of (fun e => match e with ECounted c => if Bool.eqb b c then 1 else 0 | _ => 0 end) l)
    by (intros b; apply sum_of_nonneg; intros [| |c| | | |]; try lia; by destruct (Bool.eqb b c)).
  pose proof (Hp true) as Hp1. pose proof (Hp false) as Hp2. unfold sum_of in Hp1, Hp2.
  destruct e as [| |[|]|?|? ?|?|?]; cbn [follow fst snd Bool.eqb] in *; try done; try (rewrite IH by lia; f_equal; lia).
  - unfold u64. rewrite Z.mod_small by (p2; lia). rewrite IH by lia. f_equal; lia.
  - unfold u64. rewrite Z.mod_small by (p2; lia). rewrite IH by lia. f_equal; lia.
Qed.

Lemma interval limit fuel steps g l0 h1 c1 m1 l1 h2 c2 m2 l2 :
  grun fuel (new_gworld limit) steps = Some (Some (g, l0 ++ ESwapped h1 :: c1 ++ ERate h1 m1 :: l1 ++ ESwapped h2 :: c2 ++ ERate h2 m2 :: l2)) ->
  Z.of_nat (length steps) < 2^64 -> calm c1 -> no_reading l1 -> calm c2 -> h2 = counted true l1 /\ m2 = counted false l1.
Proof.
  intros E Hn C1 N1 C2. pose proof (grun_short _ _ _ _ _ E) as Hs. apply follow_run in E as (_ & F1 & F2).
  assert (Hl1 : Z.of_nat (length l1) < 2^64) by (rewrite app_length in Hs; cbn [length] in Hs; rewrite !app_length in Hs; cbn [length] in Hs; rewrite !app_length in Hs; lia).
  pose proof (counted_short true l1). pose proof (counted_short false l1).
  set (hm0 := (g_hit (new_gworld limit), g_miss (new_gworld limit))) in *.
  set (pre := l0 ++ ESwapped h1 :: c1 ++ [ERate h1 m1]).
  assert (Epre : foldl (fun hm e => follow e hm) hm0 pre = (0, 0)).
  { unfold pre. rewrite foldl_app. cbn [foldl]. rewrite foldl_app, (follow_calm c1) by done. done. }
  assert (El1 : foldl (fun hm e => follow e hm) hm0 (pre ++ l1) = (counted true l1, counted false l1)).
  { rewrite foldl_app, Epre, follow_counts by (done || lia). f_equal; lia. }
  split.
  - rewrite (F1 (pre ++ l1) h2 (c2 ++ ERate h2 m2 :: l2)); [by rewrite El1|]. unfold pre. by repeat (rewrite <- ?app_assoc; cbn [app]).
  - rewrite (F2 (pre ++ l1 ++ ESwapped h2 :: c2) h2 m2 l2); [|unfold pre; by repeat (rewrite <- ?app_assoc; cbn [app])].
    rewrite (app_assoc pre l1), foldl_app. rewrite El1. cbn [foldl]. by rewrite follow_calm.
Qed.

(* ---------- size and count ---------- *)

Lemma wstep_cache fuel w s w' o : wstep_run fuel w s = Some (LOk (w', o)) ->
  w_cache w' = w_cache w \/ exists op out, lop_run fuel (w_cache w) op = LOk (w_cache w', out).
Proof.
  destruct s as [bs|bs|r bs|tid r copy|tid]; cbn [wstep_run]; intros E.
  - injection E as <- _. by left.
  - injection E as <- _. by left.
  - destruct (decide _); [|done]. injection E as <- _. by left.
  - destruct (decide _); [|done]. destruct (w_mem w !! r) as [[|b v]|]; [| |done]; [injection E as <- _; by left|].
    right. exists (OGet (b :: v)). cbn [lop_run]. destruct (lru_get (w_cache w) (b :: v)) as [[c g]| |]; try done. cbn [lbind fst snd] in *.
    destruct g as [g|]; injection E as <- _; cbn [w_cache option_map]; eauto.
  - destruct (w_pending w !! tid) as [[r copy]|]; [|done]. destruct (w_mem w !! r) as [v|]; [|done].
    destruct (if (copy : bool) then _ else _) as [[mem next] key]. right. exists (OSet (GStr key v)). cbn [lop_run].
    destruct (lru_set fuel (w_cache w) (GStr key v)) as [c| |]; try done. cbn [lbind] in *. injection E as <- _. cbn [w_cache]. eauto.
Qed.

Lemma gstep_cache fuel g s g' o : gstep_run fuel g s = Some (Some (g', o)) ->
  w_cache (g_world g') = w_cache (g_world g) \/ exists op out, lop_run fuel (w_cache (g_world g)) op = LOk (w_cache (g_world g'), out).
Proof.
  destruct s as [s|tid|rid|rid| |]; cbn [gstep_run]; intros E.
  - destruct (match s with LookupGet tid _ _ | LookupSet tid => _ | _ => _ end); [|done].
    destruct (wstep_run fuel (g_world g) s) as [[[w ow]| |]|] eqn:Ew; try done. apply wstep_cache in Ew.
    destruct s as [bs|bs|r bs|tid r copy|tid]; try (injection E as <- <-; done).
    destruct (looked_up (g_world g) r ow) as [b|]; injection E as <- <-; done.
  - destruct (g_due g !! tid) as [[|]|]; [| |done]; injection E as <- <-; by left.
  - destruct (decide _); [|done]. injection E as <- <-. by left.
  - destruct (g_reading g !! rid); [|done]. injection E as <- <-. by left.
  - injection E as <- <-. by left.
  - injection E as <- <-. by left.
Qed.

Lemma grun_cache fuel l : forall g g' o, grun fuel g l = Some (Some (g', o)) ->
  exists ops outs, (length ops <= length l)%nat /\ lops_run fuel (w_cache (g_world g)) ops = LOk (w_cache (g_world g'), outs).
Proof.
  induction l as [|s l IH]; intros g g' o E; cbn [grun] in E; [injection E as <- <-; by exists [], []|].
  destruct (gstep_run fuel g s) as [[[g1 o1]|]|] eqn:E1; try done. destruct (grun fuel g1 l) as [[[g2 o2]|]|] eqn:E2; try done.
  injection E as <- <-. destruct (IH _ _ _ E2) as (ops & outs & Hlen & Hops). destruct (gstep_cache _ _ _ _ _ E1) as [Ec|(op & out & Ec)].
  - rewrite Ec in Hops. exists ops, outs. split; [cbn; lia|done].
  - exists (op :: ops), (out :: outs). split; [cbn; lia|]. cbn [lops_run]. rewrite Ec. cbn [lbind fst snd]. rewrite Hops. done.
Qed.

Lemma gauges_exact limit fuel steps g log : 0 < limit -> (length steps <= fuel)%nat -> grun fuel (new_gworld limit) steps = Some (Some (g, log)) ->
  exists l, NoDup l /\ (forall s, (exists c x, lru_get (w_cache (g_world g)) s = LOk (c, Some x)) <-> s ∈ l) /\
    grun fuel (new_gworld limit) (steps ++ [GReadSize; GReadCount]) = Some (Some (g, log ++ [ESize (accounted l); ECount (Z.of_nat (length l))])) /\
    (l = [] \/ exists s, s ∈ l /\ accounted l < limit + Z.of_nat (length s) + 56).
Proof.
  intros Hl Hf E. destruct (grun_cache _ _ _ _ _ E) as (ops & outs & Hlen & Hops). cbn [g_world new_gworld w_cache new_world] in Hops.
  destruct (lops_ok fuel ops (new_lru limit) [] (CInv_new limit) Hl ltac:(cbn; lia) ltac:(by left)) as (c & l & outs' & E' & HI & _ & _ & Hb).
  rewrite Hops in E'. injection E' as <- <-. pose proof HI as (_ & Hnd & _ & Hsz & Hcnt & _).
  exists (vals l). split; [done|]. split; [|split; [|by rewrite <- Hsz; rewrite Hsz]].
  - intros s. destruct (lru_get_ok _ _ s HI) as [(Hin & c' & l' & x & E1 & _)|(Hn & E1)]; rewrite E1.
    + split; [done|]. intros _. eauto.
    + split; [by intros (? & ? & ?)|done].
  - rewrite (grun_app _ _ _ _ _ _ E). cbn [grun gstep_run app]. unfold lru_count. rewrite Hsz, Hcnt. unfold vals. rewrite map_length. done.
Qed.

Lemma no_hang limit fuel steps : 0 < limit -> (length steps <= fuel)%nat -> grun fuel (new_gworld limit) steps <> Some None.
Proof.
  intros Hl. assert (H : forall n g, WInv limit n (g_world g) -> (n + length steps <= fuel)%nat -> grun fuel g steps <> Some None).
  2:{ intros Hf. apply (H 0%nat); [apply WInv_new|lia]. }
  induction steps as [|s l IH]; intros n g HW Hf; cbn [grun]; [done|]. cbn [length] in Hf.
  assert (Hs : match gstep_run fuel g s with None => True | Some None => False | Some (Some (g', _)) => WInv limit (S n) (g_world g') end).
  { assert (HW' : WInv limit (S n) (g_world g)).
    { destruct HW as ((c & C1 & C2 & C3 & C4) & C5). split; [|done]. exists c. split_and!; try done. lia. }
    destruct s as [s|tid|rid|rid| |]; cbn [gstep_run].
    - destruct (match s with LookupGet tid _ _ | LookupSet tid => _ | _ => _ end); [|done].
      pose proof (wstep_ok limit n fuel (g_world g) s Hl ltac:(lia) HW) as Hw.
      destruct (wstep_run fuel (g_world g) s) as [[[w ow]| |]|]; try done. destruct Hw as (Hw & _).
      destruct s as [bs|bs|r bs|tid r copy|tid]; try done. by destruct (looked_up (g_world g) r ow).
    - by destruct (g_due g !! tid) as [[|]|].
    - by destruct (decide _).
    - by destruct (g_reading g !! rid).
    - done.
    - done. }
  destruct (gstep_run fuel g s) as [[[g1 o1]|]|]; try done. specialize (IH (S n) g1 Hs ltac:(lia)).
  destruct (grun fuel g1 l) as [[[? ?]|]|]; congruence.
Qed.

Lemma lookup_recorded limit fuel steps g log tid r copy g' log' :
  grun fuel (new_gworld limit) steps = Some (Some (g, log)) ->
  grun fuel (new_gworld limit) (steps ++ [GDo (LookupGet tid r copy)]) = Some (Some (g', log')) ->
  exists bs, w_mem (g_world g) !! r = Some bs /\
  (bs = [] /\ log' = log \/
   bs <> [] /\ (exists c x, lru_get (w_cache (g_world g)) bs = LOk (c, Some x)) /\ log' = log ++ [EFound] \/
   bs <> [] /\ (exists c, lru_get (w_cache (g_world g)) bs = LOk (c, None)) /\ log' = log ++ [EMissed]).
Proof.
  intros E. rewrite (grun_app _ _ _ _ _ _ E). clear E. cbn [grun gstep_run wstep_run]. unfold looked_up.
  destruct (bool_decide _); [|done]. destruct (decide _) as [_|]; [|done]. destruct (w_mem (g_world g) !! r) as [[|x bs]|] eqn:Em; [| |done].
  - intros E. injection E as _ <-. exists []. split; [done|]. left. by rewrite app_nil_r.
  - destruct (lru_get (w_cache (g_world g)) (x :: bs)) as [[c [y|]]| |] eqn:Eg; cbn; try done; intros E; injection E as _ <-; exists (x :: bs); (split; [done|]); right.
    + left. split; [done|]. split; [by exists c, y|done].
    + right. split; [done|]. split; [by exists c|done].
Qed.
Lemma others_recorded limit fuel steps g log s g' log' :
  grun fuel (new_gworld limit) steps = Some (Some (g, log)) -> (forall tid r copy, s <> GDo (LookupGet tid r copy)) ->
  grun fuel (new_gworld limit) (steps ++ [s]) = Some (Some (g', log')) ->
  exists o, log' = log ++ o /\ EFound ∉ o /\ EMissed ∉ o.
Proof.
  intros E Hs. rewrite (grun_app _ _ _ _ _ _ E). clear E. cbn [grun]. destruct (gstep_run fuel g s) as [[[g1 o1]|]|] eqn:E; [|done|done].
  intros E'. injection E' as _ <-. exists o1. rewrite app_nil_r. split; [done|].
  assert (H : o1 = [] \/ (exists b, o1 = [ECounted b]) \/ (exists h, o1 = [ESwapped h]) \/ (exists h m, o1 = [ERate h m]) \/ (exists n, o1 = [ESize n]) \/ exists n, o1 = [ECount n]).
  { destruct s as [s|tid|rid|rid| |]; cbn [gstep_run] in E.
    - destruct (match s with LookupGet tid _ _ | LookupSet tid => _ | _ => _ end); [|done].
      destruct (wstep_run fuel (g_world g) s) as [[[w ow]| |]|]; try done.
      destruct s as [bs|bs|r bs|tid r copy|tid]; try (injection E as _ <-; by left). by destruct (Hs tid r copy).
    - destruct (g_due g !! tid) as [[|]|]; [| |done]; injection E as _ <-; right; left; eauto.
    - destruct (decide _); [|done]. injection E as _ <-. eauto 7.
    - destruct (g_reading g !! rid); [|done]. injection E as _ <-. eauto 9.
    - injection E as _ <-. eauto 9.
    - injection E as _ <-. eauto 10. }
  split; intros Hin; destruct H as [->|[[? ->]|[[? ->]|[(? & ? & ->)|[[? ->]|[? ->]]]]]]; rewrite ?elem_of_list_singleton in Hin; first [done|by apply elem_of_nil in Hin].
Qed.
