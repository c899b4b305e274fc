(** Counterexample for C72: the program with the capacities of main.go. *)
From Coq Require Import Sorted.
From Verif Require Import Base SpanModel JsonModel CodecModel JaegerModel HandlerModel TreeModel TreeSpec TreeProofs FinishModel FinishSpec FinishProofs FinishTheorems FinishWitness
  ForwardModel PipelineModel SystemModel SystemSpec WholeSpec WholeProofs.

(** One request with the spans of 66 traces, one with the two spans of trace 1000. *)
Definition stall_span (t id parent : Z) : jspan := JSpan t id (str "a") [JRef (str "CHILD_OF") parent] 1600000000000000 5 [] [].
Definition stall_env (l : list jspan) : environment := Env 0 [] [] (fun _ => None) (fun _ => Some [JData l ∅]).
Definition stall_request : request := Request EJaeger [] [] (Src [] (EndEOF true)).
Definition stall_acts (l : list jspan) : list action := match handle (stall_env l) stall_request with XDone acts => acts | _ => [] end.
Definition stall_first : list action := stall_acts (map (fun i => stall_span (Z.of_nat i + 1) 1 1) (seq 0 66)).
Definition stall_second : list action := stall_acts [stall_span 1000 1 1; stall_span 1000 2 1].
Definition pass (u : unit) (x : span) : unit * (span * bool) := (u, (x, false)).

(** The first 66 traces come at 0 s, trace 1000 at 5 s.  At 8 s the 66 are emitted, but the conversion of the first one
    takes 42 s; the corrector waits for it with the last of them. *)
Definition stall_before : list yevent :=
  [YRequest stall_first; YRequest stall_second] ++ replicate 67 (YAct 0) ++ replicate 66 (YRecv map_to_list 0 0) ++
  replicate 3 (YAct 1) ++ replicate 2 (YRecv map_to_list (seconds 5) (seconds 5)) ++ [YTick (plain_tick (seconds 8)); YSend; YPipe PTake] ++ replicate 64 YSend.
(** Then everything goes on. *)
Definition stall_trace : list yevent :=
  map YPipe ([PConv; PDone; PSend; PSend; PNext] ++ concat (map (fun i => [PRecv i; PRead i; PFinish i]) [0; 1]%nat)).
Definition stall_after : list yevent :=
  stall_trace ++ [YPipe PTake; YSend; YTick (plain_tick (seconds 50))] ++ stall_trace ++ concat (replicate 64 (YPipe PTake :: stall_trace)).

Definition outcomes (log : list entry) (t : Z) : list outcome := omap (fun e => match e with LOut t' o => if t' =? t then Some o else None | _ => None end) log.

(* ---------- checks ---------- *)

Lemma acts_valid l : valid_yevent (YRequest (stall_acts l)).
Proof.
  exists (stall_env l), stall_request. unfold stall_acts. unfold handle. destruct (decide _) as [E|_]; [discriminate E|]. reflexivity.
Qed.

Lemma stall_trace_valid : Forall valid_yevent stall_trace.
Proof. unfold stall_trace. apply Forall_map, Forall_forall. intros e _. exact I. Qed.

Lemma stall_before_valid : Forall valid_yevent stall_before.
Proof.
  unfold stall_before. repeat (apply Forall_app; split).
  - repeat (constructor; [apply acts_valid|]). constructor.
  - by apply Forall_replicate.
  - apply Forall_replicate, map_order_list.
  - by apply Forall_replicate.
  - apply Forall_replicate, map_order_list.
  - constructor; [apply plain_valid|]. by repeat constructor.
  - by apply Forall_replicate.
Qed.

Lemma stall_after_valid : Forall valid_yevent stall_after.
Proof.
  unfold stall_after. apply Forall_app. split; [apply stall_trace_valid|]. apply Forall_app. split; [constructor; [done|]; constructor; [done|]; constructor; [apply plain_valid|constructor]|].
  apply Forall_app. split; [apply stall_trace_valid|]. apply Forall_concat, Forall_replicate. constructor; [done|apply stall_trace_valid].
Qed.

(** The spans of trace 1000 make a trace that can be emitted. *)
Definition stall_pair : list span := omap (fun a => match a with Put s => Some s | _ => None end) stall_second.
Definition stall_additions : list addition := map (fun s => (seconds 5, seconds 5, s)) stall_pair.

#[local] Instance timings_dec : EqDecision timings.
Proof. solve_decision. Defined.
#[local] Instance span_dec : EqDecision span.
Proof. solve_decision. Defined.

Definition stall_events : list event := map (fun a : addition => ESpan map_to_list a.1.1 a.1.2 a.2) stall_additions ++ [ETick (plain_tick (seconds 13))].
Lemma checked_pair : (match last (run stall_events).2 with Some (LOut t (Emitted _)) => t =? 1000 | _ => false end) &&
  bool_decide (pending (removelast (run stall_events).2) 1000 = stall_additions) && forallb (fun s => s_ts s =? 1600000000000000000) stall_pair = true.
Proof. vm_compute. reflexivity. Qed.

Lemma stall_complete : exists out, emission 1000 (merged_spans 1000 stall_additions) out.
Proof.
  pose proof checked_pair as C. rewrite !andb_true_iff, bool_decide_eq_true, forallb_forall in C. destruct C as [[C1 C2] C3].
  assert (Hv : Forall valid_event stall_events).
  { unfold stall_events. apply Forall_app. split; [|constructor; [apply plain_valid|constructor]]. apply Forall_map. unfold stall_additions. apply Forall_map, Forall_forall.
    intros s Hs. apply elem_of_list_In, C3 in Hs. split; [apply map_order_list|]. cbn. unfold int64_ok. p2. lia. }
  revert C1 C2 Hv. clear C3. generalize stall_events, stall_additions. intros evs a C1 C2 Hv.
  destruct (run evs).2 as [|e l _] eqn:E using rev_ind; [discriminate C1|]. rewrite last_snoc in C1. rewrite removelast_last in C2.
  destruct e as [| |t [out| | | | |]| |]; try discriminate C1. apply Z.eqb_eq in C1 as ->. destruct (emitted_is evs l 1000 out [] Hv E) as [_ Hem]. rewrite C2 in Hem. by exists out.
Qed.

Definition all_done (st : ystate unit) : Prop :=
  y_input st = [] /\ y_out st = [] /\ f_traces (y_corr st) = ∅ /\ p_source (y_pipe st) = [] /\ p_queues (y_pipe st) = [[]; []] /\
  Forall (fun r => rd_cur r = None) (p_readers (y_pipe st)).

(** What is checked by computation, before and after. *)
Definition leaves_1000 (e : entry) : bool := match e with LOut t _ => t =? 1000 | _ => false end.
Definition check_before (st : ystate unit) : bool :=
  bool_decide (additions 1000 (y_log st) = stall_additions) && forallb (fun h => match h.2 with [] => true | _ => false end) (y_handlers st) &&
  bool_decide (map (fun h => match List.last h.1 (Status 0) with Status c => c | Put _ => 0 end) (y_handlers st) = [202; 202]) &&
  (match y_out st with [] => false | _ => true end) && bool_decide (length (p_source (y_pipe st)) = 64%nat) && negb (existsb leaves_1000 (y_log st)).
Definition check_after (st : ystate unit) : bool :=
  bool_decide (additions 1000 (y_log st) = stall_additions) && ascending (concat (map readings (y_log st))) &&
  (match y_input st, y_out st, map_to_list (f_traces (y_corr st)), p_source (y_pipe st), p_queues (y_pipe st) with [], [], [], [], [[]; []] => true | _, _, _, _, _ => false end) &&
  existsb (fun e => match e with LOut t TooOld => t =? 1000 | _ => false end) (y_log st) &&
  forallb (fun r => (match rd_cur r with None => true | _ => false end) && bool_decide (length (rd_log r) = 66%nat) && forallb (fun s => negb (s_trace s =? 1000)) (concat (rd_log r))) (p_readers (y_pipe st)).
Lemma checked_before : match yrun main_sysconfig pass stall_before (yinit main_sysconfig tt) with Next st => check_before st | _ => false end = true.
Proof. vm_compute. reflexivity. Qed.
Lemma checked_after : match yrun main_sysconfig pass (stall_before ++ stall_after) (yinit main_sysconfig tt) with Next st => check_after st | _ => false end = true.
Proof. vm_compute. reflexivity. Qed.

Lemma stall_brisk : brisk (seconds 2) stall_additions /\ length stall_additions = 2%nat.
Proof.
  split; [|vm_compute; reflexivity]. split.
  - intros a1 x y a2 Ea.
    assert (Hall : Forall (fun a : addition => a.1.2 = seconds 5) (a1 ++ x :: y :: a2)) by (rewrite <- Ea; unfold stall_additions; apply Forall_map, Forall_forall; done).
    apply Forall_app in Hall as [_ Hall]. apply Forall_cons in Hall as [Hx Hall]. apply Forall_cons in Hall as [Hy _]. rewrite Hx, Hy. unfold seconds. lia.
  - intros x y Hx Hy. unfold stall_additions in Hx, Hy. apply elem_of_list_fmap in Hx as (sx & -> & _). apply elem_of_list_fmap in Hy as (sy & -> & _). unfold seconds. cbn. lia.
Qed.

Lemma stalled :
  exists evs evs' st st', yreachable main_sysconfig pass tt evs st /\ yreachable main_sysconfig pass tt (evs ++ evs') st' /\ steady (y_log st') /\
  (forall e, yinternal e -> (forall p, e <> YPipe p) -> ystep main_sysconfig pass e st = Blocked) /\ (forall k, ystep main_sysconfig pass (YTick k) st = Blocked) /\
  map (fun h => List.last h.1 (Status 0)) (y_handlers st) = [Status 202; Status 202] /\
  additions 1000 (y_log st) = additions 1000 (y_log st') /\ brisk (seconds 2) (additions 1000 (y_log st)) /\ length (additions 1000 (y_log st)) = 2%nat /\
  (exists out, emission 1000 (merged_spans 1000 (additions 1000 (y_log st))) out) /\ (forall o, LOut 1000 o ∉ y_log st) /\
  all_done st' /\ LOut 1000 TooOld ∈ y_log st' /\
  Forall (fun r => length (rd_log r) = 66%nat /\ forall s, s ∈ concat (rd_log r) -> s_trace s <> 1000) (p_readers (y_pipe st')).
Proof.
  pose proof checked_before as Cb. pose proof checked_after as Ca.
  destruct (yrun main_sysconfig pass stall_before (yinit main_sysconfig tt)) as [st| |] eqn:E; [|discriminate Cb..].
  destruct (yrun main_sysconfig pass (stall_before ++ stall_after) (yinit main_sysconfig tt)) as [st'| |] eqn:E'; [|discriminate Ca..].
  exists stall_before, stall_after, st, st'. split; [split; [apply stall_before_valid|exact E]|].
  split; [split; [apply Forall_app; split; [apply stall_before_valid|apply stall_after_valid]|exact E']|]. clear E E'.
  unfold check_before in Cb. unfold check_after in Ca. rewrite !andb_true_iff, !bool_decide_eq_true in Cb. rewrite !andb_true_iff, bool_decide_eq_true in Ca.
  destruct Cb as (((((Ha & Hh) & Hst) & Ho) & Hsrc) & Hno). destruct Ca as [[[[Ha' Hasc] Hend] Hold] Hrd].
  destruct st as [hs inp puts corr log out pipe]. cbn [y_handlers y_input y_puts y_corr y_log y_out y_pipe] in *.
  split; [by apply ascending_sorted|]. split; [|split; [by destruct out|]].
  { intros [acts|i|ord n0 n1|k| |p] Hint Hp; try done; cbn [ystep].
    - destruct (hs !! i) as [[did todo]|] eqn:Ei; [|done]. rewrite forallb_forall in Hh. apply elem_of_list_lookup_2, elem_of_list_In, Hh in Ei. by destruct todo.
    - by destruct out.
    - destruct out as [|t out]; [done|]. unfold pstep. destruct pipe as [h s src f qs rs]. cbn [p_source] in Hsrc. rewrite decide_False; [done|]. rewrite Hsrc. cbn. lia.
    - by destruct (Hp p). }
  rewrite Ha, Ha'. destruct stall_brisk as [Hbr Hlen]. split.
  { destruct hs as [|h1 [|h2 [|h3 hs]]]; try done. cbn [map] in *. destruct (List.last h1.1 (Status 0)), (List.last h2.1 (Status 0)); congruence. }
  split; [done|]. split; [done|]. split; [done|]. split; [apply stall_complete|]. split.
  { intros o Hin. apply negb_true_iff, not_true_iff_false in Hno. apply Hno, existsb_exists. exists (LOut 1000 o). split; [by apply elem_of_list_In|done]. }
  rewrite forallb_forall in Hrd. split; [|split].
  - unfold all_done. destruct (y_input st'); [|done]. destruct (y_out st'); [|done]. destruct (map_to_list (f_traces (y_corr st'))) eqn:Em; [|done].
    apply map_to_list_empty_iff in Em. destruct (p_source (y_pipe st')); [|done]. destruct (p_queues (y_pipe st')) as [|[|] [|[|] [|]]]; try done.
    repeat (split; [done|]). apply Forall_forall. intros r Hr. apply elem_of_list_In, Hrd in Hr. rewrite !andb_true_iff in Hr. destruct Hr as [[Hr _] _]. by destruct (rd_cur r).
  - apply existsb_exists in Hold as (e & He & Hm). destruct e as [| |t o| |]; try done. destruct o; try done. apply Z.eqb_eq in Hm as ->. by apply elem_of_list_In.
  - apply Forall_forall. intros r Hr. apply elem_of_list_In, Hrd in Hr. rewrite !andb_true_iff, bool_decide_eq_true, forallb_forall in Hr. destruct Hr as [[_ Hlr] Hr].
    split; [done|]. intros s Hs. apply elem_of_list_In, Hr in Hs. lia.
Qed.
