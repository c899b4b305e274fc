(** Properties C08-C11: Kafka load balancing. *)
From Coq Require Import Sorted.
From Verif Require Import Base SpanModel BinaryModel BinarySpec EncoderModel EncoderSpec EncoderProofs.

(** C08 and C09: after any sequence of sends through any pool encoders, every message built so far (in
    particular every early one) still reads as the binary encoding of its span, and its key as the little-endian
    trace id.  No send panics. *)
Theorem C08_messages_never_overwritten :
  forall l, pool_choices 0 l ->
    exists m msgs, send_all empty_mem l = Some (m, msgs) /\
      Forall2 (fun s msg => exists bs, binary_encode (sn_order s) (sn_span s) = Some bs /\
        cell_get m (msg_value msg) = bs /\ le64 (s_trace (sn_span s)) (cell_get m (msg_key msg))) l msgs.
Proof. exact sent_messages. Qed.
Print Assumptions C08_messages_never_overwritten.

(** C09: two messages have the same key iff their spans have the same trace id. *)
Theorem C09_sharding_key :
  forall l m msgs, pool_choices 0 l -> send_all empty_mem l = Some (m, msgs) ->
  forall i j si sj mi mj, l !! i = Some si -> l !! j = Some sj -> msgs !! i = Some mi -> msgs !! j = Some mj ->
  int64_ok (s_trace (sn_span si)) -> int64_ok (s_trace (sn_span sj)) ->
  (cell_get m (msg_key mi) = cell_get m (msg_key mj) <-> s_trace (sn_span si) = s_trace (sn_span sj)).
Proof. exact sent_keys. Qed.
Print Assumptions C09_sharding_key.

Definition small (t : Z) : send := Send 0 [] (new_span (str "n") t 2 3).
Definition large (t : Z) : send := Send 1 [] (new_span (replicate 520 65) t 2 3).

(** Three messages, two encoders; the large one does not fit into its 512 byte window and moves to its own array. *)
Example C08_instance :
  pool_choices 0 [small 1; large (-1); small 258] /\
  match send_all empty_mem [small 1; large (-1); small 258] with
  | Some (m, [a; b; c]) =>
      length (m_heap m) = 3%nat /\
      cell_get m (msg_key a) = [1;0;0;0;0;0;0;0] /\ cell_get m (msg_key c) = [2;1;0;0;0;0;0;0] /\
      cell_get m (msg_key b) = [255;255;255;255;255;255;255;255] /\
      cell_get m (msg_value a) = [4;2;6;2;110;0;0;0;0;0;0;0;0] /\ length (cell_get m (msg_value b)) = 533%nat
  | _ => False
  end.
Proof. split; [cbn; lia|]. vm_compute. auto 10. Qed.

(** C10: the callback gets exactly the decodable messages in order, each once; exactly those are marked. *)
Theorem C10_consumer_exact :
  forall msgs, exists is,
    StronglySorted lt is /\ (forall i, i ∈ is <-> exists s, decodes_to msgs i s) /\
    marks (consume msgs) = is /\ Forall2 (decodes_to msgs) is (callbacks (consume msgs)).
Proof. exact consume_exact. Qed.
Print Assumptions C10_consumer_exact.

(** C10: if the consumer stops at any point, every message marked so far has had its callback, and at most one
    callback is not yet marked. *)
Theorem C10_marked_after_callback :
  forall msgs pre post, consume msgs = pre ++ post ->
    (length (marks pre) <= length (callbacks pre) <= S (length (marks pre)))%nat.
Proof. exact consume_prefix_0. Qed.
Print Assumptions C10_marked_after_callback.

Example C10_instance :
  consume [[4;2;6;0;0;0;0;0;0;0;0;0]; [4;2]; [6;2;4;0;0;0;0;0;0;0;0;0]] =
    [Callback (new_span [] 1 2 3); Mark 0; Callback (new_span [] 1 3 2); Mark 2].
Proof. by vm_compute. Qed.

(** C11: what is sent comes out of the consumer unchanged, in order, none lost. *)
Theorem C11_kafka_transparent :
  forall l m msgs,
    Forall (fun s => wire_ok (sn_span s) /\ iteration_order (sn_order s) (s_tags (sn_span s))) l ->
    pool_choices 0 l -> send_all empty_mem l = Some (m, msgs) ->
    callbacks (consume (map (fun msg => cell_get m (msg_value msg)) msgs)) = map sn_span l /\
    marks (consume (map (fun msg => cell_get m (msg_value msg)) msgs)) = seq 0 (length l).
Proof. exact kafka_transparent. Qed.
Print Assumptions C11_kafka_transparent.

Example C11_instance :
  Forall (fun s => wire_ok (sn_span s) /\ iteration_order (sn_order s) (s_tags (sn_span s))) [small 1; large (-1)] /\
  pool_choices 0 [small 1; large (-1)].
Proof.
  assert (W : forall s : gostring, (length s <= 600)%nat -> wire_string s) by (intros s; unfold wire_string; p2; lia).
  assert (K : forall n t, (length n <= 600)%nat -> int64_ok t -> wire_ok (new_span n t 2 3)).
  { intros n t Hn Ht. split. { unfold span_ok, timings_ok, new_span, zero_timings; cbn. unfold int64_ok in *. p2; lia. }
    split; [by apply W|]. split; [apply W; cbn; lia|]. split; [|cbn [s_tags new_span]; rewrite map_size_empty; p2; lia].
    cbn. intros k v H. by rewrite lookup_empty in H. }
  assert (O : forall n t, iteration_order [] (s_tags (new_span n t 2 3))).
  { intros n t. unfold iteration_order, new_span; cbn [s_tags]. by rewrite map_to_list_empty. }
  split; [|cbn; lia]. constructor; [|constructor; [|constructor]]; (split; [apply K; [|zlia]|apply O]).
  - cbn. lia.
  - rewrite replicate_length. lia.
Qed.
