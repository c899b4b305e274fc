(** Properties C80 and C81: metrics about requests and messages. *)
From Verif Require Import Base SpanModel BinaryModel JsonModel CodecModel HandlerModel HandlerSpec EncoderModel EncoderSpec CountModel CountSpec CountProofs.

(** C80: the metrics change nothing else about a request. *)
Theorem C80_same :
  forall env q, handle env q = xmap visible (handle_counted env q).
Proof. exact counted_visible. Qed.
Print Assumptions C80_same.

(** C80: a request whose body is given to a parser is timed once; if its spans are accepted they are counted after all of
    them were put on the channel and before the answer.  Other requests leave the metrics alone. *)
Theorem C80_request :
  forall env q effs, handle_counted env q = XDone effs ->
  (parsed_at_all env q /\ ((exists spans, effs = map (fun s => Do (Put s)) spans ++ [Parsed (Z.of_nat (length spans)); Timed (q_endpoint q); Do (Status 202)]) \/
    effs = [Timed (q_endpoint q); Do (Status 400)])) \/
  (~ parsed_at_all env q /\ effs = [Do (Status 400)]).
Proof. exact counted_cases. Qed.
Print Assumptions C80_request.

(** C80: however requests overlap, at any time the meter is at most the number of spans put on the channel, and equal to it if
    every request that put spans there has been answered; who was told 202 has been counted. *)
Theorem C80_running :
  forall env qs todo turns t, Forall2 (fun q effs => handle_counted env q = XDone effs) qs todo -> t = interleave todo turns ->
  0 <= total marked (all t) <= total put (all t) /\
  ((forall i s, (i, Do (Put s)) ∈ t -> exists c, (i, Do (Status c)) ∈ t) -> total marked (all t) = total put (all t)) /\
  (forall i, (i, Do (Status 202)) ∈ t -> (i, Parsed (total put (by_request i t))) ∈ t).
Proof. exact running. Qed.
Print Assumptions C80_running.

(** Two requests overlap: after five turns two spans are on the channel and none is counted. *)
Example C80_instance :
  let env := Env 200 (replicate 60 0) new_pool_entry Some (fun _ => None) in
  let q b := Request EV2 [] [] (Src [b] (EndEOF true)) in
  let sp n := v2_to_span (SpanV2 0 0 0 n [] ∅ [] 0 0) in
  let a := [Do (Put (sp (str "a"))); Do (Put (sp (str "b"))); Parsed 2; Timed EV2; Do (Status 202)] in
  let b := [Timed EV2; Do (Status 400)] in
  Forall2 (fun q effs => handle_counted env q = XDone effs) [q (str "[{""name"":""a""},{""name"":""b""}]"); q (str "[{""name"":]")] [a; b] /\
  (let t := interleave [a; b] [0; 1; 1; 0; 1]%nat in total marked (all t) = 0 /\ total put (all t) = 2) /\
  (let t := interleave [a; b] [0; 1; 1; 0; 1; 0; 0; 0]%nat in total marked (all t) = 2 /\ (0%nat, Do (Status 202)) ∈ t /\ by_request 1 t = b).
Proof.
  split; [|split; [by vm_compute|]].
  - apply Forall2_cons_2; [by vm_compute|]. apply Forall2_cons_2; [by vm_compute|]. apply Forall2_nil_2.
  - split; [by vm_compute|]. split; [|by vm_compute]. apply elem_of_list_In. vm_compute. auto 10.
Qed.

(** C81: whatever is sent through whichever encoders, the histogram of message sizes gets the true length of every 128th message
    and nothing else; the messages are the same as without it. *)
Theorem C81_sizes :
  forall l, pool_choices 0 l ->
  exists m msgs c sizes, send_sized 0 empty_mem l = Some (m, msgs, c, sizes) /\ send_all empty_mem l = Some (m, msgs) /\ every_128th l msgs sizes.
Proof. exact sizes_reported. Qed.
Print Assumptions C81_sizes.

(** 300 messages, the first and the last in another encoder: two of them are measured. *)
Example C81_instance :
  let s i n := Send i [] (new_span n 1 2 3) in
  let l := s 0%nat (str "name") :: replicate (Pos.to_nat 298) (s 1%nat (str "n")) ++ [s 0%nat (str "nam")] in
  pool_choices 0 l /\ exists m msgs c, send_sized 0 empty_mem l = Some (m, msgs, c, [13; 13]).
Proof.
  set (s := fun i n => Send i [] (new_span n 1 2 3)). set (l := s 0%nat (str "name") :: replicate (Pos.to_nat 298) (s 1%nat (str "n")) ++ [s 0%nat (str "nam")]).
  assert (Hp : pool_choices 0 l).
  { split; [cbn; lia|]. change (sn_enc (s 0%nat (str "name")) =? 0)%nat with true. cbn [pool_choices].
    assert (H : forall k, pool_choices 2 (replicate k (s 1%nat (str "n")) ++ [s 0%nat (str "nam")])).
    { induction k as [|k IH]; cbn [replicate app pool_choices]; [split; [cbn; lia|done]|]. split; [cbn; lia|]. exact IH. }
    change (Pos.to_nat 298) with (S (Pos.to_nat 297)). cbn [replicate app pool_choices]. split; [cbn; lia|]. apply H. }
  split; [exact Hp|]. destruct (C81_sizes l Hp) as (m & msgs & c & sizes & E & Es & Hl & Hz). exists m, msgs, c. fold s l.
  assert (Hlen : length msgs = Pos.to_nat 300) by (rewrite <- (send_all_length _ _ _ _ Es); unfold l; cbn [length]; rewrite app_length, replicate_length; cbn [length]; lia).
  enough (Hs : sizes = [13; 13]) by (rewrite <- Hs; exact E). clear E Es Hp.
  assert (H : forall j, (j < 2)%nat -> sizes !! j = Some 13).
  { intros j Hj. apply (Hz j (s 1%nat (str "n")) [4; 2; 6; 2; 110; 0; 0; 0; 0; 0; 0; 0; 0]); [|clear; by vm_compute].
    unfold l. replace (Pos.to_nat 128 * j + Pos.to_nat 127)%nat with (S (Pos.to_nat 128 * j + Pos.to_nat 126)) by lia. cbn [lookup list_lookup].
    apply lookup_app_l_Some, lookup_replicate_2. lia. }
  rewrite Hlen in Hl. assert (Hl2 : (Pos.to_nat 300 / Pos.to_nat 128 = 2)%nat) by (symmetry; apply (Nat.div_unique _ _ _ (Pos.to_nat 44)); lia).
  rewrite Hl2 in Hl. pose proof (H 0%nat ltac:(lia)) as H0. pose proof (H 1%nat ltac:(lia)) as H1. clear - Hl H0 H1. destruct sizes as [|a [|b [|? ?]]]; try done.
  injection H0 as ->. injection H1 as ->. done.
Qed.
