(** Properties C53, C54: the goroutines behind the corrector. *)
From Verif Require Import Base SpanModel ForwardModel ForwardSpec ForwardProofs PipelineModel PipelineSpec PipelineProofs PipelineTheorems PropForward.

(** C53: at any moment of any schedule, the traces that a target finished, the one it is reading, those in its channel
    and as many as are before the send, are the converted traces in order; what was read of the current trace is right. *)
Theorem C53_delivers :
  forall (S : Type) cfg (conv : converter S) s0 evs st, reachable cfg conv s0 evs st ->
  exists s1 ts, converts_all conv s0 (inputs evs) s1 ts /\
  length (p_queues st) = length (g_targets cfg) /\ length (p_readers st) = length (g_targets cfg) /\
  forall i q r, p_queues st !! i = Some q -> p_readers st !! i = Some r ->
  exists cur rest, ts = rd_log r ++ cur ++ map (read (p_heap st)) q ++ rest /\
    match rd_cur r with None => cur = [] | Some (_, pos, acc) => exists t, cur = [t] /\ acc = take pos t /\ (pos <= length t)%nat end /\
    length rest = (held st i + length (p_source st))%nat.
Proof. exact @pipeline_delivers. Qed.
Print Assumptions C53_delivers.

(** C53: channels stay within their capacities, and nothing panics. *)
Theorem C53_bounded :
  forall (S : Type) cfg (conv : converter S) s0 evs st, reachable cfg conv s0 evs st ->
  (length (p_source st) <= g_source cfg)%nat /\
  forall i q cap, p_queues st !! i = Some q -> g_targets cfg !! i = Some cap -> (length q <= cap)%nat.
Proof. exact @pipeline_bounded. Qed.
Print Assumptions C53_bounded.

Theorem C53_no_panic :
  forall (S : Type) cfg (conv : converter S) s0 evs, prun cfg conv evs (pinit cfg s0) <> Panicked.
Proof. exact @pipeline_no_panic. Qed.
Print Assumptions C53_no_panic.

(** Two traces; the second is being overwritten by the forwarder while target 0 is within the first. *)
Definition small_config : config := Config 2 [1; 1]%nat.
Definition small_run : list pevent :=
  [PInput [named (str "f") 1; named [] 2; named [] 3]; PTake; PInput [named (str "f") 4; named [] 5];
   PConv; PConv; PConv; PDone; PSend; PRecv 0; PSend; PNext; PTake; PRead 0; PConv; PConv].

Example C53_instance :
  match prun small_config counting small_run (pinit small_config 10) with
  | Next st => inputs small_run = [[named (str "f") 1; named [] 2; named [] 3]; [named (str "f") 4; named [] 5]] /\
      p_heap st = [[set_dur 11 (named [] 2); set_dur 12 (named [] 3); named [] 3]; [set_dur 14 (named [] 5); named [] 5]] /\
      p_fwd st = FConv (Slice 1 2) 2 1 /\ p_queues st = [[]; [Slice 0 2]] /\
      map rd_cur (p_readers st) = [Some (Slice 0 2, 1%nat, [set_dur 11 (named [] 2)]); None]
  | _ => False end.
Proof. by vm_compute. Qed.

(** C54: some goroutine can make a step, or everything has been delivered to all targets. *)
Theorem C54_no_deadlock :
  forall (S : Type) cfg (conv : converter S) s0 evs st, Forall (fun c => 0 < c)%nat (g_targets cfg) -> reachable cfg conv s0 evs st ->
  (exists e st', internal e /\ pstep cfg conv e st = Next st') \/
  (stopped cfg conv st /\ exists s1 ts, converts_all conv s0 (inputs evs) s1 ts /\ map rd_log (p_readers st) = replicate (length (g_targets cfg)) ts).
Proof. exact @pipeline_progress. Qed.
Print Assumptions C54_no_deadlock.

(** C54: without input the goroutines stop after finitely many steps, whatever the schedule. *)
Theorem C54_terminates :
  forall (S : Type) cfg (conv : converter S) s0 evs st, reachable cfg conv s0 evs st ->
  exists bound, forall evs' st', Forall internal evs' -> prun cfg conv evs' st = Next st' -> (length evs' <= bound)%nat.
Proof. exact @pipeline_terminates. Qed.
Print Assumptions C54_terminates.

(** C54: and then everything is delivered. *)
Theorem C54_drains :
  forall (S : Type) cfg (conv : converter S) s0 evs st, Forall (fun c => 0 < c)%nat (g_targets cfg) -> reachable cfg conv s0 evs st ->
  exists s1 ts, converts_all conv s0 (inputs evs) s1 ts /\
  (exists evs' st', Forall internal evs' /\ prun cfg conv evs' st = Next st' /\ stopped cfg conv st') /\
  forall evs' st', Forall internal evs' -> prun cfg conv evs' st = Next st' -> stopped cfg conv st' ->
    map rd_log (p_readers st') = replicate (length (g_targets cfg)) ts.
Proof. exact @pipeline_drains. Qed.
Print Assumptions C54_drains.

(** The forwarder is blocked (both channels hold one trace), and then all is delivered. *)
Definition busy_run : list pevent :=
  small_run ++ [PDone; PSend; PInput []].
Definition finish_run : list pevent :=
  [PRecv 1; PRead 0; PFinish 0; PRead 1; PRead 1; PFinish 1; PRecv 0; PSend; PNext; PRecv 1; PRead 0; PFinish 0; PRead 1; PFinish 1;
   PTake; PDone; PSend; PSend; PNext; PRecv 0; PRecv 1; PFinish 0; PFinish 1].

Example C54_instance :
  match prun small_config counting busy_run (pinit small_config 10) with
  | Next st => pstep small_config counting PSend st = Blocked /\ Forall internal finish_run /\
      match prun small_config counting finish_run st with
      | Next st' => map rd_log (p_readers st') =
          replicate 2 [[set_dur 11 (named [] 2); set_dur 12 (named [] 3)]; [set_dur 14 (named [] 5)]; []]
      | _ => False end
  | _ => False end.
Proof. vm_compute. split; [done|]. split; [by repeat constructor|done]. Qed.
