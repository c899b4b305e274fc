(** Executions for C119. *)
From Verif Require Import Base SpanModel JsonModel CodecModel HandlerModel TreeModel TreeSpec TreeProofs FinishModel FinishSpec FinishProofs FinishWitness
  ForwardModel ForwardSpec PipelineModel PipelineSpec SystemModel SystemSpec ConnectSpec ConnectProofs WholeSpec WholeProofs OrderSpec OrderWitness RenameSpec RenameWitness
  UnseenSpec UnseenWitness HostsWitness ClockWitness AliasSpec.

(** What the front and the shop of C117 say, with the identifiers of [mirror]: 91 for 9, 98 for 2, 96 for 4, 94 for 6. *)
Definition front_alias : list action := hosts_acts (str "[{""id"":""62"",""traceId"":""5b"",""name"":""page"",""timestamp"":1600000000000000,""duration"":100},{""id"":""60"",""traceId"":""5b"",""parentId"":""62"",""name"":""get"",""timestamp"":1600000000000010,""duration"":50,""annotations"":[{""timestamp"":1600000000000010,""value"":""cs""},{""timestamp"":1600000000000060,""value"":""cr""}]}]").
Definition shop_alias : list action := hosts_acts (str "[{""id"":""60"",""traceId"":""5b"",""parentId"":""62"",""timestamp"":1600000000000020,""duration"":30,""annotations"":[{""timestamp"":1600000000000020,""value"":""sr""},{""timestamp"":1600000000000050,""value"":""ss""}]},{""id"":""5e"",""traceId"":""5b"",""parentId"":""60"",""name"":""work"",""timestamp"":1600000000000030,""duration"":5}]").
(** Another trace in between, later. *)
Definition alias_course : list yevent :=
  [YRequest front_alias; YRequest elsewhere; YRequest shop_alias; YAct 0; YAct 2; YRecv map_to_list 0 0; YRecv map_to_list (seconds 1) (seconds 1); YAct 1; YRecv map_to_list (seconds 2) (seconds 2);
   YAct 0; YAct 2; YRecv map_to_list (seconds 3) (seconds 3); YRecv map_to_list (seconds 3) (seconds 3);
   YAct 0; YAct 1; YAct 2; YTick (plain_tick (seconds 10))] ++ deliver 1 ++ [YTick (plain_tick (seconds 12))] ++ deliver 3.

Definition alias_leaves : list span :=
  [renamed mirror page; Span 96 98 91 (str "get") [] (noon + 10000) 50000 host_tags (Timings (noon + 10000) (noon + 60000) (noon + 50000) (noon + 20000)); renamed mirror (labour 0)].

#[local] Instance alias_times_dec : EqDecision timings.
Proof. solve_decision. Defined.
#[local] Instance alias_span_dec : EqDecision span.
Proof. solve_decision. Defined.

Lemma front_alias_valid : valid_yevent (YRequest front_alias).
Proof. eapply host_acts_from. vm_compute. reflexivity. Qed.
Lemma shop_alias_valid : valid_yevent (YRequest shop_alias).
Proof. eapply host_acts_from. vm_compute. reflexivity. Qed.
Lemma alias_reaches : yreachable unseen_config unseen_conv tt alias_course (after alias_course).
Proof.
  apply reaches; [|vm_compute; reflexivity]. unfold alias_course. cbn [app deliver map replicate concat].
  repeat (apply Forall_cons_2; [first [exact front_alias_valid|exact shop_alias_valid|exact elsewhere_valid|apply plain_valid|apply map_order_list|exact I]|]). apply Forall_nil_2.
Qed.
Lemma alias_quiet : quiet (after alias_course).
Proof. apply quietb_spec. vm_compute. reflexivity. Qed.
Lemma alias_undisturbed : undisturbed 91 (seconds 8) (after alias_course).
Proof.
  split; [by vm_compute|]. split; [apply ascending_sorted; by vm_compute|]. split; [apply briskb_spec; by vm_compute|].
  split; [apply calmb_spec; by vm_compute|]. by vm_compute.
Qed.
Lemma alias_told : told 91 (after alias_course) = map (renamed mirror) (told 9 (after host_course1)).
Proof. apply (bool_decide_unpack _). vm_compute. exact I. Qed.
Lemma alias_emits : LOut 91 (Emitted alias_leaves) ∈ y_log (after alias_course).
Proof. apply in_emitted. apply (bool_decide_unpack _). by vm_compute. Qed.
