(** Executions for C120. *)
From Verif Require Import Base SpanModel JsonModel CodecModel HandlerModel TreeModel TreeSpec TreeProofs FinishModel FinishSpec FinishProofs FinishWitness
  ForwardModel ForwardSpec PipelineModel PipelineSpec SystemModel SystemSpec ConnectSpec ConnectProofs WholeSpec WholeProofs OrderSpec OrderWitness ShiftSpec
  UnseenSpec UnseenWitness HostsWitness ClockWitness EpochSpec.

(** What the front and the shop of C117 say, a day later. *)
Definition day : Z := 86400000000000.
Definition front_later : list action := hosts_acts (str "[{""id"":""2"",""traceId"":""9"",""name"":""page"",""timestamp"":1600086400000000,""duration"":100},{""id"":""4"",""traceId"":""9"",""parentId"":""2"",""name"":""get"",""timestamp"":1600086400000010,""duration"":50,""annotations"":[{""timestamp"":1600086400000010,""value"":""cs""},{""timestamp"":1600086400000060,""value"":""cr""}]}]").
Definition shop_later : list action := hosts_acts (str "[{""id"":""4"",""traceId"":""9"",""parentId"":""2"",""timestamp"":1600086400000020,""duration"":30,""annotations"":[{""timestamp"":1600086400000020,""value"":""sr""},{""timestamp"":1600086400000050,""value"":""ss""}]},{""id"":""6"",""traceId"":""9"",""parentId"":""4"",""name"":""work"",""timestamp"":1600086400000030,""duration"":5}]").
(** Another trace in between. *)
Definition epoch_course : list yevent :=
  [YRequest front_later; YRequest elsewhere; YRequest shop_later; YAct 0; YAct 2; YRecv map_to_list 0 0; YRecv map_to_list (seconds 1) (seconds 1); YAct 1; YRecv map_to_list (seconds 2) (seconds 2);
   YAct 0; YAct 2; YRecv map_to_list (seconds 3) (seconds 3); YRecv map_to_list (seconds 3) (seconds 3);
   YAct 0; YAct 1; YAct 2; YTick (plain_tick (seconds 10))] ++ deliver 1 ++ [YTick (plain_tick (seconds 12))] ++ deliver 3.

#[local] Instance epoch_times_dec : EqDecision timings.
Proof. solve_decision. Defined.
#[local] Instance epoch_span_dec : EqDecision span.
Proof. solve_decision. Defined.

Lemma front_later_valid : valid_yevent (YRequest front_later).
Proof. eapply host_acts_from. vm_compute. reflexivity. Qed.
Lemma shop_later_valid : valid_yevent (YRequest shop_later).
Proof. eapply host_acts_from. vm_compute. reflexivity. Qed.
Lemma epoch_reaches : yreachable unseen_config unseen_conv tt epoch_course (after epoch_course).
Proof.
  apply reaches; [|vm_compute; reflexivity]. unfold epoch_course. cbn [app deliver map replicate concat].
  repeat (apply Forall_cons_2; [first [exact front_later_valid|exact shop_later_valid|exact elsewhere_valid|apply plain_valid|apply map_order_list|exact I]|]). apply Forall_nil_2.
Qed.
Lemma epoch_quiet : quiet (after epoch_course).
Proof. apply quietb_spec. vm_compute. reflexivity. Qed.
Lemma epoch_undisturbed : undisturbed 9 (seconds 8) (after epoch_course).
Proof.
  split; [by vm_compute|]. split; [apply ascending_sorted; by vm_compute|]. split; [apply briskb_spec; by vm_compute|].
  split; [apply calmb_spec; by vm_compute|]. by vm_compute.
Qed.
Lemma epoch_told : told 9 (after epoch_course) = map (moved day) (told 9 (after host_course1)).
Proof. apply (bool_decide_unpack _). vm_compute. exact I. Qed.
Lemma epoch_emits : LOut 9 (Emitted (map (moved day) (leaves 0))) ∈ y_log (after epoch_course).
Proof. apply in_emitted. apply (bool_decide_unpack _). by vm_compute. Qed.
Lemma epoch_between : Forall (between noon (noon + 1000000)) (told 9 (after host_course1)).
Proof.
  rewrite host_told1. unfold page, served, get, labour, between, at_between, noon.
  repeat (apply Forall_cons_2; [cbn [s_ts s_dur s_timings tCS tCR tSS tSR]; lia|]). apply Forall_nil_2.
Qed.
Lemma epoch_roomy : roomy (1 + length (told 9 (after host_course1))) noon (noon + 1000000) /\
  roomy (1 + length (told 9 (after host_course1))) (noon + day) (noon + 1000000 + day).
Proof. rewrite host_told1. unfold roomy, noon, day. cbn [length]. p2. split; (split; [lia|]; split; lia). Qed.
