(** Properties C12-C16: the intern cache and its LRU list. *)
From Verif Require Import Base LruModel LruSpec LruProofs CacheProofs.

(** C12: whatever happened before ([l0]) and whatever other goroutines do between the two halves of a lookup
    ([l]), a lookup of bytes [v] returns a string that reads [v]. *)
Theorem C12_lookup_returns_asked :
  forall limit fuel l0 w0 o0 tid r copy v w1 o1, 0 < limit ->
  wrun fuel (new_world limit) l0 = Some (LOk (w0, o0)) -> w_mem w0 !! r = Some v ->
  wstep_run fuel w0 (LookupGet tid r copy) = Some (LOk (w1, o1)) ->
  (length l0 < fuel)%nat ->
  (exists res, o1 = [Ret v res] /\ match res with None => v = [] | Some m => w_mem w1 !! m = Some v end) \/
  (o1 = [] /\ forall l w2 o2, wrun fuel w1 l = Some (LOk (w2, o2)) -> LookupSet tid ∉ l -> (length l0 + length l + 2 <= fuel)%nat ->
     exists w3 m, wstep_run fuel w2 (LookupSet tid) = Some (LOk (w3, [Ret v (Some m)])) /\ w_mem w3 !! m = Some v).
Proof. exact lookup_returns_asked. Qed.
Print Assumptions C12_lookup_returns_asked.

(** C12: no history of lookups panics or blocks forever. *)
Theorem C12_lookups_return :
  forall limit fuel l, 0 < limit -> (length l <= fuel)%nat ->
  wrun fuel (new_world limit) l = None \/ exists w o, wrun fuel (new_world limit) l = Some (LOk (w, o)).
Proof. exact lookups_return. Qed.
Print Assumptions C12_lookups_return.

(** C13: every string returned so far still reads the bytes asked for after any further steps, including
    overwriting every buffer that was looked up with copying. *)
Theorem C13_interned_forever :
  forall limit fuel l1 l2 w1 o1 w2 o2, 0 < limit -> (length l1 + length l2 <= fuel)%nat ->
  wrun fuel (new_world limit) l1 = Some (LOk (w1, o1)) -> wrun fuel w1 l2 = Some (LOk (w2, o2)) ->
  Forall (fun r => match r_result r with None => r_asked r = [] | Some m => w_mem w2 !! m = Some (r_asked r) end) o1.
Proof. exact interned_forever. Qed.
Print Assumptions C13_interned_forever.

(** Two goroutines intern the same bytes from the same buffer at the same time; then the buffer is reused. *)
Example C12_instance :
  match wrun 20 (new_world 100)
    [NewBuf (str "ab"); LookupGet 1 0 true; LookupGet 2 0 true; LookupSet 2; LookupSet 1; Overwrite 0 (str "xy");
     LookupGet 1 0 true; LookupSet 1; NewStr (str "ab"); LookupGet 3 4 false] with
  | Some (LOk (w, o)) =>
      o = [Ret (str "ab") (Some 1%nat); Ret (str "ab") (Some 2%nat); Ret (str "xy") (Some 3%nat); Ret (str "ab") (Some 1%nat)] /\
      w_mem w !! 0%nat = Some (str "xy") /\ w_mem w !! 1%nat = Some (str "ab")
  | _ => False
  end.
Proof. by vm_compute. Qed.

(** C14 and C15: any sequence of operations behaves like the ideal recency list; Count and Size are exact, and the
    size exceeds the limit by less than the entry of some stored string. *)
Theorem C14_recency_list :
  forall limit ops fuel, 0 < limit -> (length ops <= fuel)%nat ->
  exists c outs l, lops_run fuel (new_lru limit) ops = LOk (c, outs) /\ ideal_run limit [] ops l outs /\
    (forall s, is_Some (c_values c !! s) <-> s ∈ l) /\
    NoDup l /\ lru_count c = Z.of_nat (length l) /\ lru_size c = accounted l /\
    (l = [] \/ exists s, s ∈ l /\ lru_size c < limit + Z.of_nat (length s) + 56).
Proof. exact lru_refines. Qed.
Print Assumptions C14_recency_list.

(** C14: the ideal is deterministic, so outputs and contents are determined by it. *)
Theorem C14_ideal_determined :
  forall limit l o a x b y, ideal_step limit l o a x -> ideal_step limit l o b y -> a = b /\ x = y.
Proof. exact ideal_step_det. Qed.
Print Assumptions C14_ideal_determined.

Definition S_ (s : gostring) : lop := OSet (GStr 0 s).

(** Limit 100: the third insert drops "b", which was used least recently. *)
Example C14_instance :
  match lops_run 10 (new_lru 100) [S_ (str "a"); S_ (str "b"); OGet (str "a"); S_ (str "c"); OGet (str "b"); OGet (str "a"); OGet (str "c")] with
  | LOk (c, outs) => outs = [None; None; Some (str "a"); None; None; Some (str "a"); Some (str "c")] /\ lru_count c = 2 /\ lru_size c = 114
  | _ => False
  end.
Proof. by vm_compute. Qed.

(** C16 is false for a limit of zero or less: the eviction loop never ends. *)
Theorem C16_set_returns_refuted :
  exists limit, forall g fuel, lru_set fuel (new_lru limit) g = LHang.
Proof. exists 0. intros g fuel. by apply set_hangs. Qed.
Print Assumptions C16_set_returns_refuted.

Theorem C16_hangs_for_nonpositive_limits :
  forall limit g fuel, limit <= 0 -> lru_set fuel (new_lru limit) g = LHang.
Proof. exact set_hangs. Qed.
Print Assumptions C16_hangs_for_nonpositive_limits.

(** C16 with a positive limit: in every reachable state Set returns after finitely many evictions. *)
Theorem C16_set_returns :
  forall limit ops fuel c outs g, 0 < limit ->
  lops_run fuel (new_lru limit) ops = LOk (c, outs) -> (length ops <= fuel)%nat ->
  exists n, forall fuel', (n <= fuel')%nat -> exists c', lru_set fuel' c g = LOk c'.
Proof. exact set_returns. Qed.
Print Assumptions C16_set_returns.

(** An entry larger than the limit still goes in, and everything else goes out. *)
Example C16_instance :
  match lops_run 10 (new_lru 10) [S_ (str "a"); S_ (replicate 50 65); OGet (str "a")] with
  | LOk (c, outs) => outs = [None; None; None] /\ lru_count c = 1 /\ lru_size c = 106
  | _ => False
  end.
Proof. by vm_compute. Qed.
