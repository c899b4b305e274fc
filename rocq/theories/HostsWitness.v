(** Executions for C117. *)
From Coq Require Import Sorted.
From Verif Require Import Base SpanModel JsonModel CodecModel HandlerModel TreeModel TreeSpec TreeProofs FinishModel FinishSpec FinishProofs FinishWitness
  ForwardModel ForwardSpec PipelineModel PipelineSpec SystemModel SystemSpec ConnectSpec ConnectProofs WholeSpec WholeProofs OrderSpec OrderWitness UnseenSpec UnseenWitness
  ClockSpec HostsSpec.

Definition hosts_acts (body : bytes) : list action :=
  match handle unseen_env (Request EV1 (str "application/json") [] (Src [body] (EndEOF true))) with XDone acts => acts | _ => [] end.
(** The front calls the shop; the clock of the shop is right, or 5 ms ahead. *)
Definition front_says : list action := hosts_acts (str "[{""id"":""2"",""traceId"":""9"",""name"":""page"",""timestamp"":1600000000000000,""duration"":100},{""id"":""4"",""traceId"":""9"",""parentId"":""2"",""name"":""get"",""timestamp"":1600000000000010,""duration"":50,""annotations"":[{""timestamp"":1600000000000010,""value"":""cs""},{""timestamp"":1600000000000060,""value"":""cr""}]}]").
Definition shop_says : list action := hosts_acts (str "[{""id"":""4"",""traceId"":""9"",""parentId"":""2"",""timestamp"":1600000000000020,""duration"":30,""annotations"":[{""timestamp"":1600000000000020,""value"":""sr""},{""timestamp"":1600000000000050,""value"":""ss""}]},{""id"":""6"",""traceId"":""9"",""parentId"":""4"",""name"":""work"",""timestamp"":1600000000000030,""duration"":5}]").
Definition shop_says_ahead : list action := hosts_acts (str "[{""id"":""4"",""traceId"":""9"",""parentId"":""2"",""timestamp"":1600000000005020,""duration"":30,""annotations"":[{""timestamp"":1600000000005020,""value"":""sr""},{""timestamp"":1600000000005050,""value"":""ss""}]},{""id"":""6"",""traceId"":""9"",""parentId"":""4"",""name"":""work"",""timestamp"":1600000000005030,""duration"":5}]").

Definition host_tags : gmap gostring gostring := {[str "protocolVersion" := str "json v1"]}.
Definition page : span := Span 2 0 9 (str "page") [] noon 100000 host_tags (Timings 0 0 0 0).
Definition get : span := Span 4 2 9 (str "get") [] (noon + 10000) 50000 host_tags (Timings (noon + 10000) (noon + 60000) 0 0).
Definition served (d : Z) : span := Span 4 2 9 [] [] (noon + 20000 + d) 30000 host_tags (Timings 0 0 (noon + 50000 + d) (noon + 20000 + d)).
Definition labour (d : Z) : span := Span 6 4 9 (str "work") [] (noon + 30000 + d) 5000 host_tags (Timings 0 0 0 0).
Definition ahead : Z := 5000000.
Definition leaves (d : Z) : list span :=
  [labour 0; Span 4 2 9 (str "get") [] (noon + 10000) 50000 host_tags (Timings (noon + 10000) (noon + 60000) (noon + 50000 + d) (noon + 20000 + d)); page].

(** The clock is right; both requests at once. *)
Definition host_course1 : list yevent :=
  [YRequest front_says; YRequest shop_says; YAct 0; YAct 1; YRecv map_to_list 0 0; YRecv map_to_list 1 1; YAct 0; YAct 1; YRecv map_to_list 2 2; YRecv map_to_list 3 3;
   YAct 0; YAct 1; YTick (plain_tick (seconds 9))] ++ deliver 3.
(** The shop first, then trace 8, the front at 4 s, the shop again at 5 s. *)
Definition host_course2 : list yevent :=
  [YRequest shop_says_ahead; YRequest elsewhere; YRequest front_says; YRequest shop_says_ahead; YAct 0; YAct 0; YRecv map_to_list 0 0; YRecv map_to_list 0 0; YAct 0;
   YAct 1; YAct 1; YRecv map_to_list 1 1; YAct 2; YAct 2; YRecv map_to_list (seconds 4) (seconds 4); YRecv map_to_list (seconds 4) (seconds 4); YAct 2; YAct 3; YAct 3; YAct 3;
   YRecv map_to_list (seconds 5) (seconds 5); YRecv map_to_list (seconds 5) (seconds 5); YTick (plain_tick (seconds 9))] ++ deliver 1 ++ [YTick (plain_tick (seconds 14))] ++ deliver 3.

#[local] Instance times_dec : EqDecision timings.
Proof. solve_decision. Defined.
#[local] Instance host_span_dec : EqDecision span.
Proof. solve_decision. Defined.

Lemma host_acts_from body acts : handle unseen_env (Request EV1 (str "application/json") [] (Src [body] (EndEOF true))) = XDone acts -> valid_yevent (YRequest (hosts_acts body)).
Proof. intros E. unfold hosts_acts. rewrite E. by eexists _, _. Qed.
Lemma front_valid : valid_yevent (YRequest front_says).
Proof. eapply host_acts_from. vm_compute. reflexivity. Qed.
Lemma shop_valid : valid_yevent (YRequest shop_says).
Proof. eapply host_acts_from. vm_compute. reflexivity. Qed.
Lemma shop_ahead_valid : valid_yevent (YRequest shop_says_ahead).
Proof. eapply host_acts_from. vm_compute. reflexivity. Qed.
Ltac host_ok :=
  cbn [app deliver map replicate concat]; repeat (apply Forall_cons_2; [first [exact front_valid|exact shop_valid|exact shop_ahead_valid|exact elsewhere_valid|apply plain_valid|apply map_order_list|exact I]|]);
  apply Forall_nil_2.
Lemma host_course1_reaches : yreachable unseen_config unseen_conv tt host_course1 (after host_course1).
Proof. apply reaches; [unfold host_course1; host_ok|]. vm_compute. reflexivity. Qed.
Lemma host_course2_reaches : yreachable unseen_config unseen_conv tt host_course2 (after host_course2).
Proof. apply reaches; [unfold host_course2; host_ok|]. vm_compute. reflexivity. Qed.
Lemma host_quiet1 : quiet (after host_course1).
Proof. apply quietb_spec. vm_compute. reflexivity. Qed.
Lemma host_quiet2 : quiet (after host_course2).
Proof. apply quietb_spec. vm_compute. reflexivity. Qed.
Lemma host_undisturbed1 : undisturbed 9 (seconds 8) (after host_course1).
Proof.
  split; [by vm_compute|]. split; [apply ascending_sorted; by vm_compute|]. split; [apply briskb_spec; by vm_compute|].
  split; [apply calmb_spec; by vm_compute|]. by vm_compute.
Qed.
Lemma host_undisturbed2 : undisturbed 9 (seconds 8) (after host_course2).
Proof.
  split; [by vm_compute|]. split; [apply ascending_sorted; by vm_compute|]. split; [apply briskb_spec; by vm_compute|].
  split; [apply calmb_spec; by vm_compute|]. by vm_compute.
Qed.
Lemma host_told1 : told 9 (after host_course1) = [page; served 0; get; labour 0].
Proof. apply (bool_decide_unpack _). vm_compute. exact I. Qed.
Lemma host_told2 : told 9 (after host_course2) = [served ahead; labour ahead; page; get; served ahead; labour ahead].
Proof. apply (bool_decide_unpack _). vm_compute. exact I. Qed.
Lemma host_emits1 : LOut 9 (Emitted (leaves 0)) ∈ y_log (after host_course1).
Proof. apply in_emitted. apply (bool_decide_unpack _). by vm_compute. Qed.
Lemma host_emits2 : LOut 9 (Emitted (leaves ahead)) ∈ y_log (after host_course2).
Proof. apply in_emitted. apply (bool_decide_unpack _). by vm_compute. Qed.

Definition host_outer (i : Z) : Z := if i =? 6 then ahead else 0.
Definition host_inner (i : Z) : Z := if i =? 4 then ahead else if i =? 6 then ahead else 0.
Ltac host_date := first [left; split; reflexivity|right; p2; unfold noon, ahead; repeat split; lia].
Ltac host_reclock := split; [reflexivity|]; cbn [s_id s_ts s_timings tCS tCR tSS tSR host_outer host_inner Z.eqb Pos.eqb page get served labour];
  split; [first [left; unfold noon, ahead; lia|right; unfold noon, ahead; lia]|]; split; [host_date|]; split; [host_date|]; split; host_date.
Lemma host_halves : two_halves get (served ahead).
Proof. repeat split; try reflexivity; first [by left|left; cbn; unfold noon, ahead; lia|cbn; unfold noon, ahead; lia|idtac]. Qed.
Lemma host_retold : retold host_outer host_inner (told 9 (after host_course1)) (told 9 (after host_course2)).
Proof.
  rewrite host_told1, host_told2. exists [page; served ahead; get; labour ahead]. split; [|split].
  - repeat (constructor; [host_reclock|]). constructor.
  - intros x y Hx Hy E. rewrite !elem_of_cons, elem_of_nil in Hx, Hy.
    destruct Hx as [->|[->|[->|[->|[]]]]], Hy as [->|[->|[->|[->|[]]]]]; first [discriminate E|left; reflexivity|right; left; exact host_halves|right; right; exact host_halves].
  - intros s. rewrite !elem_of_cons, !elem_of_nil. tauto.
Qed.
Lemma host_root : one_root (leaves 0) page /\ s_id page ∈ ids (told 9 (after host_course1)).
Proof.
  split; [|rewrite host_told1; apply elem_of_list_here]. split.
  - split; [do 2 apply elem_of_list_further; apply elem_of_list_here|]. right. cbn [leaves ids map s_id s_parent page labour]. rewrite !elem_of_cons, elem_of_nil. intros [H|[H|[H|[]]]]; discriminate H.
  - intros y [Hy Hr]. unfold leaves in Hy. rewrite !elem_of_cons, elem_of_nil in Hy. destruct Hy as [->|[->|[->|[]]]]; [..|reflexivity]; exfalso;
      (destruct Hr as [Hr|Hr]; [discriminate Hr|]); apply Hr; cbn [leaves ids map s_id s_parent page labour]; rewrite !elem_of_cons; tauto.
Qed.
Lemma host_clocks : by_host host_outer host_inner (leaves 0) page.
Proof.
  split; [reflexivity|]. split.
  - intros p c Hp (Hc & E & Hne). unfold leaves in Hp, Hc. rewrite !elem_of_cons, elem_of_nil in Hp, Hc.
    destruct Hp as [->|[->|[->|[]]]], Hc as [->|[->|[->|[]]]]; first [discriminate E|reflexivity|exfalso; apply Hne; reflexivity].
  - intros x Hx Hf. unfold leaves in Hx. rewrite !elem_of_cons, elem_of_nil in Hx.
    destruct Hx as [->|[->|[->|[]]]]; first [reflexivity|exfalso; apply Hf; unfold four_timings, noon; cbn; lia].
Qed.
Lemma host_straight x : x ∈ leaves 0 -> ~ circular (leaves 0) x.
Proof.
  intros _. apply ranked_not_circular with (rank := fun s => s_id s). intros p c Hp (Hc & E & Hne).
  unfold leaves in Hp, Hc. rewrite !elem_of_cons, elem_of_nil in Hp, Hc.
  destruct Hp as [->|[->|[->|[]]]], Hc as [->|[->|[->|[]]]]; first [discriminate E|reflexivity|exfalso; apply Hne; reflexivity].
Qed.
Lemma copy_overlooks : overlooks (fun x => (x, false)).
Proof. intros x y H. by split. Qed.

(** The parent of two spans of the front is missing; below one of them the front calls the shop. *)
Definition front_part : list action := hosts_acts (str "[{""id"":""3"",""traceId"":""9"",""parentId"":""2"",""name"":""a"",""timestamp"":1600000000000000,""duration"":70},{""id"":""4"",""traceId"":""9"",""parentId"":""3"",""name"":""get"",""timestamp"":1600000000000010,""duration"":50,""annotations"":[{""timestamp"":1600000000000010,""value"":""cs""},{""timestamp"":1600000000000060,""value"":""cr""}]},{""id"":""5"",""traceId"":""9"",""parentId"":""2"",""name"":""b"",""timestamp"":1600000000000080,""duration"":20}]").
Definition shop_part : list action := hosts_acts (str "[{""id"":""4"",""traceId"":""9"",""parentId"":""3"",""timestamp"":1600000000000020,""duration"":30,""annotations"":[{""timestamp"":1600000000000020,""value"":""sr""},{""timestamp"":1600000000000050,""value"":""ss""}]},{""id"":""6"",""traceId"":""9"",""parentId"":""4"",""name"":""work"",""timestamp"":1600000000000030,""duration"":5}]").
Definition shop_part_ahead : list action := hosts_acts (str "[{""id"":""4"",""traceId"":""9"",""parentId"":""3"",""timestamp"":1600000000005020,""duration"":30,""annotations"":[{""timestamp"":1600000000005020,""value"":""sr""},{""timestamp"":1600000000005050,""value"":""ss""}]},{""id"":""6"",""traceId"":""9"",""parentId"":""4"",""name"":""work"",""timestamp"":1600000000005030,""duration"":5}]").
Definition part_course1 : list yevent :=
  [YRequest front_part; YRequest shop_part; YAct 0; YAct 1; YRecv map_to_list 0 0; YRecv map_to_list 1 1; YAct 0; YAct 1; YRecv map_to_list 2 2; YRecv map_to_list 3 3;
   YAct 0; YRecv map_to_list 4 4; YAct 0; YAct 1; YTick (plain_tick (seconds 9))] ++ deliver 5.
Definition part_course2 : list yevent :=
  [YRequest shop_part_ahead; YRequest front_part; YAct 0; YAct 0; YRecv map_to_list 0 0; YRecv map_to_list 0 0; YAct 0; YAct 1; YAct 1; YRecv map_to_list 1 1; YRecv map_to_list 1 1;
   YAct 1; YRecv map_to_list 2 2; YAct 1; YTick (plain_tick (seconds 9))] ++ deliver 5.

Definition part (id start dur : Z) (name : gostring) : span := Span id 2 9 name [] (noon + start) dur host_tags (Timings 0 0 0 0).
Definition part3 : span := part 3 0 70000 (str "a").
Definition part5 : span := part 5 80000 20000 (str "b").
Definition get3 : span := set_parent 3 get.
Definition served3 (d : Z) : span := set_parent 3 (served d).
Definition part_leaves (d : Z) : list span :=
  [labour 0; part5; Span 4 3 9 (str "get") [] (noon + 10000) 50000 host_tags (Timings (noon + 10000) (noon + 60000) (noon + 50000 + d) (noon + 20000 + d)); part3; injected_at noon 100000].
Lemma front_part_valid : valid_yevent (YRequest front_part).
Proof. eapply host_acts_from. vm_compute. reflexivity. Qed.
Lemma shop_part_valid : valid_yevent (YRequest shop_part).
Proof. eapply host_acts_from. vm_compute. reflexivity. Qed.
Lemma shop_part_ahead_valid : valid_yevent (YRequest shop_part_ahead).
Proof. eapply host_acts_from. vm_compute. reflexivity. Qed.
Ltac part_ok :=
  cbn [app deliver map replicate concat]; repeat (apply Forall_cons_2; [first [exact front_part_valid|exact shop_part_valid|exact shop_part_ahead_valid|apply plain_valid|apply map_order_list|exact I]|]);
  apply Forall_nil_2.
Lemma part_course1_reaches : yreachable unseen_config unseen_conv tt part_course1 (after part_course1).
Proof. apply reaches; [unfold part_course1; part_ok|]. vm_compute. reflexivity. Qed.
Lemma part_course2_reaches : yreachable unseen_config unseen_conv tt part_course2 (after part_course2).
Proof. apply reaches; [unfold part_course2; part_ok|]. vm_compute. reflexivity. Qed.
Lemma part_undisturbed1 : undisturbed 9 (seconds 8) (after part_course1).
Proof.
  split; [by vm_compute|]. split; [apply ascending_sorted; by vm_compute|]. split; [apply briskb_spec; by vm_compute|].
  split; [apply calmb_spec; by vm_compute|]. by vm_compute.
Qed.
Lemma part_undisturbed2 : undisturbed 9 (seconds 8) (after part_course2).
Proof.
  split; [by vm_compute|]. split; [apply ascending_sorted; by vm_compute|]. split; [apply briskb_spec; by vm_compute|].
  split; [apply calmb_spec; by vm_compute|]. by vm_compute.
Qed.
Lemma part_told1 : told 9 (after part_course1) = [part3; served3 0; get3; labour 0; part5].
Proof. apply (bool_decide_unpack _). vm_compute. exact I. Qed.
Lemma part_told2 : told 9 (after part_course2) = [served3 ahead; labour ahead; part3; get3; part5].
Proof. apply (bool_decide_unpack _). vm_compute. exact I. Qed.
Lemma part_emits1 : LOut 9 (Emitted (part_leaves 0)) ∈ y_log (after part_course1).
Proof. apply in_emitted. apply (bool_decide_unpack _). by vm_compute. Qed.
Lemma part_emits2 : LOut 9 (Emitted (part_leaves ahead)) ∈ y_log (after part_course2).
Proof. apply in_emitted. apply (bool_decide_unpack _). by vm_compute. Qed.
Lemma part_halves : two_halves get3 (served3 ahead).
Proof. repeat split; try reflexivity; first [by left|left; cbn; unfold noon, ahead; lia|cbn; unfold noon, ahead; lia|idtac]. Qed.
Lemma part_retold : retold_settled host_outer host_inner (told 9 (after part_course1)) (told 9 (after part_course2)).
Proof.
  rewrite part_told1, part_told2. exists [part3; served3 ahead; get3; labour ahead; part5]. split; [|split; [|split]].
  - unfold get3, served3. repeat (constructor; [split; [reflexivity|]; cbn [s_id s_ts s_timings tCS tCR tSS tSR host_outer host_inner Z.eqb Pos.eqb part3 part5 part set_parent get served labour];
      split; [first [left; unfold noon, ahead; lia|right; unfold noon, ahead; lia]|]; split; [host_date|]; split; [host_date|]; split; host_date|]). constructor.
  - intros x y Hx Hy E. rewrite !elem_of_cons, elem_of_nil in Hx, Hy.
    destruct Hx as [->|[->|[->|[->|[->|[]]]]]], Hy as [->|[->|[->|[->|[->|[]]]]]]; first [discriminate E|left; reflexivity|right; left; exact part_halves|right; right; exact part_halves].
  - unfold settled. repeat (apply Forall_cons_2; [first
      [left; intros y Hy E; rewrite !elem_of_cons, elem_of_nil in Hy; destruct Hy as [->|[->|[->|[->|[->|[]]]]]]; first [reflexivity|discriminate E]
      |right; exists get3; split; [do 2 apply elem_of_list_further; apply elem_of_list_here|]; split; [reflexivity|]; split; [apply elem_of_list_here|discriminate]]|]).
    apply Forall_nil_2.
  - intros s. rewrite !elem_of_cons, !elem_of_nil. tauto.
Qed.
Lemma part_root : one_root (part_leaves 0) (injected_at noon 100000) /\ s_id (injected_at noon 100000) ∉ ids (told 9 (after part_course1)).
Proof.
  split; [|rewrite part_told1; cbn; rewrite !elem_of_cons, elem_of_nil; intros [H|[H|[H|[H|[H|[]]]]]]; discriminate H]. split.
  - split; [do 4 apply elem_of_list_further; apply elem_of_list_here|]. right. cbn. rewrite !elem_of_cons, elem_of_nil. intros [H|[H|[H|[H|[H|[]]]]]]; discriminate H.
  - intros y [Hy Hr]. unfold part_leaves in Hy. rewrite !elem_of_cons, elem_of_nil in Hy. destruct Hy as [->|[->|[->|[->|[->|[]]]]]]; [..|reflexivity]; exfalso;
      (destruct Hr as [Hr|Hr]; [discriminate Hr|]); apply Hr; cbn; rewrite !elem_of_cons; tauto.
Qed.
Lemma part_clocks : by_host host_outer host_inner (part_leaves 0) (injected_at noon 100000) /\
  (forall c, child (part_leaves 0) (injected_at noon 100000) c -> host_inner (s_id c) = 0).
Proof.
  split; [split; [reflexivity|]; split|].
  - intros p c Hp (Hc & E & Hne). unfold part_leaves in Hp, Hc. rewrite !elem_of_cons, elem_of_nil in Hp, Hc.
    destruct Hp as [->|[->|[->|[->|[->|[]]]]]], Hc as [->|[->|[->|[->|[->|[]]]]]]; first [discriminate E|reflexivity|exfalso; apply Hne; reflexivity].
  - intros x Hx Hf. unfold part_leaves in Hx. rewrite !elem_of_cons, elem_of_nil in Hx.
    destruct Hx as [->|[->|[->|[->|[->|[]]]]]]; first [reflexivity|exfalso; apply Hf; unfold four_timings, noon; cbn; lia].
  - intros c (Hc & E & _). unfold part_leaves in Hc. rewrite !elem_of_cons, elem_of_nil in Hc.
    destruct Hc as [->|[->|[->|[->|[->|[]]]]]]; first [discriminate E|reflexivity].
Qed.
Lemma part_straight x : x ∈ part_leaves 0 -> ~ circular (part_leaves 0) x.
Proof.
  intros _. apply ranked_not_circular with (rank := fun s => s_id s). intros p c Hp (Hc & E & Hne).
  unfold part_leaves in Hp, Hc. rewrite !elem_of_cons, elem_of_nil in Hp, Hc.
  destruct Hp as [->|[->|[->|[->|[->|[]]]]]], Hc as [->|[->|[->|[->|[->|[]]]]]]; first [discriminate E|reflexivity|exfalso; apply Hne; reflexivity].
Qed.

(** A converter that looks at them: it drops what the server received in the first ms. *)
Definition nosy (x : span) : span * bool := (x, (0 <? tSR (s_timings x)) && (tSR (s_timings x) <? noon + 1000000)).
Lemma nosy_sees : kept nosy (leaves 0) = [labour 0; page] /\ length (kept nosy (leaves ahead)) = 3%nat.
Proof. split; [apply (bool_decide_unpack _); by vm_compute|by vm_compute]. Qed.
