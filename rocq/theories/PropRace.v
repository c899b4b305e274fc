(** C92: no two goroutines ever access the same memory without synchronisation, if one of them writes.
    C93: objects of pools are used only by those who got them, and put back once. *)
From Verif Require Import Base RaceSpec RaceModel RaceAll RacePoolSpec RacePool.
Local Open Scope nat_scope.

Theorem C92_race_free (kafka : bool) (evs : list event) (l : log) (s : state) : run kafka evs init = Some (l, s) -> race_free l.
Proof. exact (run_free kafka evs l s). Qed.

(** A run: a handler parses a span and interns a text, the corrector changes the tags and adds a trace, the converter changes
    them again, sink and ring read them; the ring keeps the trace under its lock while /spans waits for it.  The tag map is
    accessed by five goroutines. *)
Definition span_run : list event :=
  let h := THandler 0 in
  [EPoolNew h; EPoolUse h 0 true; ELock h MCache; EUse h MCache true; EString h; EUnlock h MCache; EMap h; ETag h 2 true; EPoolPut h 0; EReady h; EPut h;
   ELock (TAdmin 0) MCache; EUse (TAdmin 0) MCache false; EUnlock (TAdmin 0) MCache;
   ETake; ETable (LMap 2) true; ELook TCorrector (LBytes 1); ENewCell; EEmit [LMap 2; LCell 3];
   EConvert; EConv (LMap 2) true; EConv (LCell 3) true; EConverted; EForward false; EForward true; EForwarded;
   ERecv TSink (CTarget false); ELook TSink (LMap 2); EBatchNew; EBatch (LBatch 4) true; ERecv TRing (CTarget true); ELook TRing (LMap 2);
   ELock TRing MRing; EUse TRing MRing true; EUnlock TRing MRing; ELock (TAdmin 1) MRing; EUse (TAdmin 1) MRing false; ELook (TAdmin 1) (LMap 2); EUnlock (TAdmin 1) MRing;
   EFlush; ERecv TSubmit CGrouped; ELook TSubmit (LBatch 4); EPoolGet (TClaim 3) 0; EPoolUse (TClaim 3) 0 true].
Definition who (x : place) (l : log) : list thread :=
  flat_map (fun a => match a with (t, ARead y) | (t, AWrite y) => if decide (y = x) then [t] else [] | _ => [] end) l.
Example C92_instance : exists l s, run false span_run init = Some (l, s) /\ race_free l /\
  who (LMap 2) l = [THandler 0; THandler 0; TCorrector; TForwarder; TSink; TRing; TAdmin 1] /\ who (LPooled 0) l = [THandler 0; TClaim 3].
Proof.
  destruct (run false span_run init) as [[l s]|] eqn:E; [|by vm_compute in E]. exists l, s. split; [done|]. split; [by eapply C92_race_free|].
  assert (Some l = fst <$> run false span_run init) as El by by rewrite E. vm_compute in El. injection El as ->. split; vm_compute; reflexivity.
Qed.
(** With Kafka: two spans through one encoder, whose second message is made while the first is read. *)
Definition kafka_run : list event :=
  let h := THandler 0 in
  [EMap h; ETag h 0 true; EMap h; EReady h; EPut h; EPut h;
   ESpan; EEncNew; EEncUse true; ECell false 0 true; EEncTags; ECell false 1 true; ECarve false 2; ECell true 0 true; ECarve true 1; EEncPut; EMessage;
   ESpan; EEncGet 0; EEncUse true; ERecv TProducer CProducer; ECell false 2 true; ELook TProducer (LSlab 3 0); ELook TProducer (LSlab 4 0); ECarve false 1; ELook TProducer (LSlab 3 1);
   ECell true 1 true; ECarve true 1; EEncPut; EMessage; EFetch 7; EDeliver 7; ERecv (TClaim 7) (CClaim 7); ELook (TClaim 7) (LBytes 5); EMap (TClaim 7); EReady (TClaim 7); EPut (TClaim 7);
   ETake; ETable (LMap 6) true; ERecv TProducer CProducer; ELook TProducer (LSlab 3 2)].
Example C92_kafka_instance : exists l s, run true kafka_run init = Some (l, s) /\ race_free l /\ who (LSlab 3 0) l = [TSender; TProducer] /\ who (LMap 6) l = [TClaim 7; TCorrector].
Proof.
  destruct (run true kafka_run init) as [[l s]|] eqn:E; [|by vm_compute in E]. exists l, s. split; [done|]. split; [by eapply C92_race_free|].
  assert (Some l = fst <$> run true kafka_run init) as El by by rewrite E. vm_compute in El. injection El as ->. split; vm_compute; reflexivity.
Qed.
(** What the theorem excludes: a handler that writes a tag after it sent the span. *)
Example C92_race_instance : ~ race_free ([(THandler 0, ASend CHttp); (THandler 0, AWrite (LMap 0)); (TCorrector, ARecv CHttp); (TCorrector, ARead (LMap 0))] : log).
Proof.
  intros H. assert (B : before ([(THandler 0, ASend CHttp); (THandler 0, AWrite (LMap 0)); (TCorrector, ARecv CHttp); (TCorrector, ARead (LMap 0))] : log) 1 3).
  { apply (H 1 3 (LMap 0)); [lia|by eexists; left|by eexists; right|left; by eexists]. }
  enough (K : forall i j, before ([(THandler 0, ASend CHttp); (THandler 0, AWrite (LMap 0)); (TCorrector, ARecv CHttp); (TCorrector, ARead (LMap 0))] : log) i j -> i = 1 -> False) by (by eapply K).
  intros i j Hb. induction Hb as [i j t a b Hlt Hi Hj|i j t u c Hlt Hi Hj _|i j t u m Hlt Hi Hj|i j t u p Hlt Hi Hj|i j k H1 IH1 H2 IH2]; intros ->; try done; try (by apply IH1).
  cbn in Hi. injection Hi as <- <-. destruct j as [|[|[|[|j]]]]; try lia; done.
Qed.

Print Assumptions C92_race_free.

Theorem C93_pools (kafka : bool) (evs : list event) (l : log) (s : state) : run kafka evs init = Some (l, s) -> pools_respected l.
Proof. exact (pools_ok kafka evs l s). Qed.

(** A buffer that is used by two handlers one after the other, and an encoder that is used for two spans. *)
Definition pool_run : list event :=
  let h := THandler 0 in let g := THandler 1 in
  [EPoolNew h; EPoolUse h 0 true; EPoolPut h 0; EPoolNew g; EPoolGet g 0; EPoolUse g 0 true; EPoolUse g 1 true; EPoolPut g 0; EPoolPut g 1; EPoolGet h 1; EPoolUse h 1 true;
   EPutNil h; EPutNil h; ESpan; EEncNew; EEncPut; EMessage; ESpan; EEncGet 0; EEncUse true; EEncPut].
Example C93_instance : exists l s, run true pool_run init = Some (l, s) /\ pools_respected l /\
  l !! 1 = Some (THandler 0, APut (LPooled 0)) /\ l !! 2 = Some (THandler 1, AGet (LPooled 0)) /\ l !! 3 = Some (THandler 1, AWrite (LPooled 0)) /\
  l !! 12 = Some (TSender, APut (LEncoder 2)) /\ l !! 15 = Some (TSender, AGet (LEncoder 2)) /\ l !! 16 = Some (TSender, AWrite (LEncoder 2)).
Proof.
  destruct (run true pool_run init) as [[l s]|] eqn:E; [|by vm_compute in E]. exists l, s. split; [done|]. split; [by eapply C93_pools|].
  assert (Some l = fst <$> run true pool_run init) as El by by rewrite E. vm_compute in El. injection El as ->. repeat split.
Qed.
(** What the theorem excludes: putting a buffer back twice. *)
Example C93_twice_instance : ~ pools_respected ([(THandler 0, APut (LPooled 0)); (THandler 0, APut (LPooled 0))] : log).
Proof. intros H. destruct (H 0 1 (THandler 0) (THandler 0) (LPooled 0) (APut (LPooled 0))) as (k & H1 & H2 & _); [lia|done|done|right; by right|lia]. Qed.

Print Assumptions C93_pools.
