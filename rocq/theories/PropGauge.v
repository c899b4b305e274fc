(** Property C78: what the gauges of the intern cache report. *)
From Verif Require Import Base LruModel LruSpec GaugeModel GaugeSpec GaugeProofs.

(** C78: nothing is counted twice or forgotten: when every lookup has been counted and no reading is under way, one more
    reading brings the reported numbers up to all lookups so far. *)
Theorem C78_counted_once :
  forall limit fuel steps g log rid, grun fuel (new_gworld limit) steps = Some (Some (g, log)) ->
  Z.of_nat (length steps) < 2^64 -> quiet log ->
  exists g' h m, grun fuel (new_gworld limit) (steps ++ [GSwapHit rid; GSwapMiss rid]) = Some (Some (g', log ++ [ESwapped h; ERate h m])) /\
    reported_hits log + h = found log /\ reported_misses log + m = missed log.
Proof. exact counted_once. Qed.
Print Assumptions C78_counted_once.

(** C78: what the record says about lookups: a lookup of the empty string leaves nothing, another one leaves that its string
    was found or missed, and nothing else leaves such an entry. *)
Theorem C78_record :
  forall limit fuel steps g log, grun fuel (new_gworld limit) steps = Some (Some (g, log)) ->
  (forall tid r copy g' log', grun fuel (new_gworld limit) (steps ++ [GDo (LookupGet tid r copy)]) = Some (Some (g', log')) ->
     exists bs, w_mem (g_world g) !! r = Some bs /\
     (bs = [] /\ log' = log \/
      bs <> [] /\ (exists c x, lru_get (w_cache (g_world g)) bs = LOk (c, Some x)) /\ log' = log ++ [EFound] \/
      bs <> [] /\ (exists c, lru_get (w_cache (g_world g)) bs = LOk (c, None)) /\ log' = log ++ [EMissed])) /\
  (forall s g' log', (forall tid r copy, s <> GDo (LookupGet tid r copy)) -> grun fuel (new_gworld limit) (steps ++ [s]) = Some (Some (g', log')) ->
     exists o, log' = log ++ o /\ EFound ∉ o /\ EMissed ∉ o).
Proof. exact (fun limit fuel steps g log E => conj (fun tid r copy g' log' => lookup_recorded limit fuel steps g log tid r copy g' log' E) (fun s g' log' => others_recorded limit fuel steps g log s g' log' E)). Qed.
Print Assumptions C78_record.

(** C78: at any time no more was reported than happened. *)
Theorem C78_never_more :
  forall limit fuel steps g log, grun fuel (new_gworld limit) steps = Some (Some (g, log)) -> Z.of_nat (length steps) < 2^64 ->
  0 <= reported_hits log <= found log /\ 0 <= reported_misses log <= missed log.
Proof. exact never_more. Qed.
Print Assumptions C78_never_more.

(** C78: a reading during which nothing is counted, after another such reading, reports the lookups counted since. *)
Theorem C78_interval :
  forall limit fuel steps g l0 h1 c1 m1 l1 h2 c2 m2 l2,
  grun fuel (new_gworld limit) steps = Some (Some (g, l0 ++ ESwapped h1 :: c1 ++ ERate h1 m1 :: l1 ++ ESwapped h2 :: c2 ++ ERate h2 m2 :: l2)) ->
  Z.of_nat (length steps) < 2^64 -> calm c1 -> no_reading l1 -> calm c2 -> h2 = counted true l1 /\ m2 = counted false l1.
Proof. exact interval. Qed.
Print Assumptions C78_interval.

(** C78: without that it is false: one hit and one miss between two reports, and the reports say no hit (rate 0), then no
    miss (rate 1). *)
Theorem C78_interval_refuted :
  exists limit fuel steps g l0 l1 l2 h1 m1, 0 < limit /\
  grun fuel (new_gworld limit) steps = Some (Some (g, l0 ++ ERate h1 m1 :: l1 ++ ERate 0 1 :: l2 ++ [ERate 1 0])) /\
  ended l1 = 0 /\ counted true l1 = 1 /\ counted false l1 = 1 /\ counted true l2 = 0 /\ counted false l2 = 0 /\ ended l2 = 0.
Proof.
  exists 1000, 20%nat, [GDo (NewStr (str "a")); GDo (NewStr (str "b")); GDo (LookupGet 1 0 false); GCount 1; GDo (LookupSet 1); GSwapHit 9; GSwapMiss 9;
    GSwapHit 9; GDo (LookupGet 1 0 false); GCount 1; GDo (LookupGet 2 1 false); GCount 2; GSwapMiss 9; GSwapHit 9; GSwapMiss 9].
  eexists _, [EMissed; ECounted false; ESwapped 0], [ESwapped 0; EFound; ECounted true; EMissed; ECounted false], [ESwapped 1], 0, 1.
  split; [done|]. split; [vm_compute; reflexivity|done].
Qed.
Print Assumptions C78_interval_refuted.

(** C78: the other two gauges are exact: there is a list of the strings that a lookup finds, without repetition; its
    length and its size with 56 bytes for each string are reported; the size exceeds the limit by less than one entry.
    Reading the gauges changes nothing. *)
Theorem C78_size_and_count :
  forall limit fuel steps g log, 0 < limit -> (length steps <= fuel)%nat -> grun fuel (new_gworld limit) steps = Some (Some (g, log)) ->
  exists l, NoDup l /\ (forall s, (exists c x, lru_get (w_cache (g_world g)) s = LOk (c, Some x)) <-> s ∈ l) /\
    grun fuel (new_gworld limit) (steps ++ [GReadSize; GReadCount]) = Some (Some (g, log ++ [ESize (accounted l); ECount (Z.of_nat (length l))])) /\
    (l = [] \/ exists s, s ∈ l /\ accounted l < limit + Z.of_nat (length s) + 56).
Proof. exact gauges_exact. Qed.
Print Assumptions C78_size_and_count.

(** C78: no operation hangs or panics. *)
Theorem C78_returns :
  forall limit fuel steps, 0 < limit -> (length steps <= fuel)%nat -> grun fuel (new_gworld limit) steps <> Some None.
Proof. exact no_hang. Qed.
Print Assumptions C78_returns.

(** Two goroutines miss the same string at the same time, one of them counts late; two readings overlap; a reading
    without lookups reports 0 of 0, for which the program divides zero by zero. *)
Example C78_instance :
  let steps := [GDo (NewStr (str "a")); GDo (LookupGet 1 0 false); GDo (LookupGet 2 0 false); GCount 1; GSwapHit 8; GSwapHit 9; GSwapMiss 9; GSwapMiss 8;
                GDo (LookupSet 1); GCount 2; GDo (LookupSet 2); GDo (LookupGet 1 0 false); GCount 1; GSwapHit 9; GSwapMiss 9; GReadSize; GReadCount; GSwapHit 9; GSwapMiss 9] in
  match grun 20 (new_gworld 1000) steps with
  | Some (Some (g, log)) =>
      log = [EMissed; EMissed; ECounted false; ESwapped 0; ESwapped 0; ERate 0 1; ERate 0 0; ECounted false; EFound; ECounted true; ESwapped 1; ERate 1 1;
             ESize 57; ECount 1; ESwapped 0; ERate 0 0] /\
      found log = 1 /\ missed log = 2 /\ reported_hits log = 1 /\ reported_misses log = 2 /\
      found log + missed log = counted true log + counted false log /\ begun log = ended log
  | _ => False
  end.
Proof. by vm_compute. Qed.
