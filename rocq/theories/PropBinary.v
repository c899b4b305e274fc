(** Properties C03-C07: the binary span codec. *)
From Verif Require Import Base SpanModel BinaryModel BinarySpec BinaryProofs.

(** C03: encoding succeeds; decoding the bytes, whatever follows them, gives the span back and leaves the
    following bytes unread. *)
Theorem C03_binary_roundtrip :
  forall s order, wire_ok s -> iteration_order order (s_tags s) ->
    exists bs, binary_encode order s = Some bs /\ forall rest, binary_decode (bs ++ rest) = DOk s rest.
Proof. exact binary_roundtrip. Qed.
Print Assumptions C03_binary_roundtrip.

Definition example_span : span :=
  Span (-1) 300 (-9223372036854775808) (str "get") (str "db") 1577836800000000 5
    {[ str "b" := []; str "a" := str "x" ]} (Timings 1 0 (-64) 64).

Example C03_instance :
  wire_ok example_span /\ iteration_order [(str "b", []); (str "a", str "x")] (s_tags example_span) /\
  iteration_order [(str "a", str "x"); (str "b", [])] (s_tags example_span) /\
  binary_encode [(str "a", str "x"); (str "b", [])] example_span =
    Some ([1; 255; 255; 255; 255; 255; 255; 255; 255; 255; 1; 216; 4; 6; 103; 101; 116; 4; 100; 98;
           128; 128; 210; 159; 152; 194; 205; 5; 10; 2; 0; 127; 128; 1; 4; 2; 97; 2; 120; 2; 98; 0; 0]) /\
  binary_encode [(str "b", []); (str "a", str "x")] example_span <>
    binary_encode [(str "a", str "x"); (str "b", [])] example_span.
Proof.
  assert (W : forall s, (length s <= 10)%nat -> wire_string s) by (intros s; unfold wire_string; p2; lia).
  assert (H : forall k v, s_tags example_span !! k = Some v -> wire_string k /\ wire_string v).
  { intros k v Hk. unfold example_span in Hk; cbn [s_tags] in Hk.
    apply lookup_insert_Some in Hk as [[<- <-]|[_ Hk]]; [split; apply W; cbn; lia|].
    apply lookup_singleton_Some in Hk as [<- <-]. split; apply W; cbn; lia. }
  split.
  { split. { unfold span_ok, timings_ok, int64_ok, example_span; cbn. p2; lia. }
    split; [apply W; cbn; lia|]. split; [apply W; cbn; lia|]. split; [exact H|].
    change (size (s_tags example_span)) with 2%nat. p2; lia. }
  split; [vm_compute; first [reflexivity | constructor]|].
  split; [vm_compute; first [reflexivity | constructor]|].
  split; vm_compute; congruence.
Qed.

(** C04: no strict prefix of an encoded span decodes. *)
Theorem C04_binary_truncation :
  forall s order bs p, wire_ok s -> iteration_order order (s_tags s) ->
    binary_encode order s = Some bs -> strict_prefix p bs ->
    exists e, binary_decode p = DErr e /\ e <> EFuel.
Proof. exact binary_truncated. Qed.
Print Assumptions C04_binary_truncation.

Example C04_instance :
  exists bs, binary_encode [] (new_span (str "n") 1 2 3) = Some bs /\ strict_prefix (removelast bs) bs /\
    binary_decode (removelast bs) = DErr EEof.
Proof. eexists. split; [vm_compute; reflexivity|]. split; [|by vm_compute]. by exists [0]. Qed.

(** C05: on every input the decoder returns a span or an end-of-input or length error; the explicit
    out-of-fuel outcome of the model never occurs. *)
Theorem C05_binary_terminates :
  forall r, (exists s rest, binary_decode r = DOk s rest) \/ binary_decode r = DErr EEof \/ binary_decode r = DErr ELength.
Proof. exact binary_terminates. Qed.
Print Assumptions C05_binary_terminates.

(** C05: a successful decode consumes a non-empty prefix and depends on that prefix alone; every integer field
    of the span is a 64-bit value. *)
Theorem C05_binary_local :
  forall r s rest, binary_decode r = DOk s rest ->
    exists p, p <> [] /\ r = p ++ rest /\ span_ok s /\ forall q, binary_decode (p ++ q) = DOk s q.
Proof. exact binary_local_all. Qed.
Print Assumptions C05_binary_local.

(** Hostile inputs: a block count of -2^63 (which stays negative when negated), a huge block count, a negative
    string length, and a negative block count that is accepted. *)
Example C05_instance :
  let head := [0;0;0;0;0;0;0;0;0;0;0] in
  let min_count := [255;255;255;255;255;255;255;255;255;1] in
  binary_decode (head ++ min_count ++ [0] ++ [0] ++ [7]) = DOk zero_span [7] /\
  binary_decode (head ++ [254;255;255;255;255;255;255;255;255;1]) = DErr EEof /\
  binary_decode ([0;0;0;1]) = DErr ELength /\
  binary_decode (head ++ [1;0;2;97;2;98;0]) = DOk (add_tag (str "a") (str "b") zero_span) [].
Proof. vm_compute. auto. Qed.

(** C06: every int64 takes 1 to 10 bytes and is self-delimiting. *)
Theorem C06_varint_shape :
  forall r, int64_ok r ->
    exists bs, write_long r = Some bs /\ (1 <= length bs <= 10)%nat /\ varint_shape bs.
Proof. exact write_long_shape_all. Qed.
Print Assumptions C06_varint_shape.

(** C06: if one encoding is a prefix of another, the integers are equal. *)
Theorem C06_varint_prefix_free :
  forall r1 r2 b1 b2 c, int64_ok r1 -> int64_ok r2 ->
    write_long r1 = Some b1 -> write_long r2 = Some b2 -> b2 = b1 ++ c -> c = [] /\ r1 = r2.
Proof. exact write_long_prefix_free. Qed.
Print Assumptions C06_varint_prefix_free.

Example C06_instance :
  write_long 0 = Some [0] /\ write_long (-1) = Some [1] /\ write_long 64 = Some [128; 1] /\
  write_long (-9223372036854775808) = Some [255;255;255;255;255;255;255;255;255;1].
Proof. vm_compute. auto. Qed.

(** C07: equal bytes come from equal spans. *)
Theorem C07_binary_injective :
  forall s1 s2 o1 o2 bs, wire_ok s1 -> wire_ok s2 ->
    iteration_order o1 (s_tags s1) -> iteration_order o2 (s_tags s2) ->
    binary_encode o1 s1 = Some bs -> binary_encode o2 s2 = Some bs -> s1 = s2.
Proof. exact binary_injective. Qed.
Print Assumptions C07_binary_injective.

Example C07_instance :
  binary_encode [] (new_span [] 1 2 3) = Some [4;2;6;0;0;0;0;0;0;0;0;0] /\
  binary_encode [] (new_span [] 1 3 2) = Some [6;2;4;0;0;0;0;0;0;0;0;0].
Proof. vm_compute. auto. Qed.

(** C56: a map written in any number of Avro blocks, with plain or negated counts, decodes to the map in which
    the last entry for a key wins. *)
Theorem C56_map_blocks :
  forall bs, Forall block_ok bs ->
    exists b, blocks_bytes bs = Some b /\ forall rest, exists m, read_map_string (b ++ rest) = DOk m rest /\
      forall k v, m !! k = Some v <-> last_entry (concat (map mb_entries bs)) k v.
Proof. exact map_blocks_decode. Qed.
Print Assumptions C56_map_blocks.

Example C56_instance :
  let b1 := MapBlock (Some 4) [(str "a", str "1")] in
  let b2 := MapBlock None [(str "b", str "2"); (str "a", str "3")] in
  Forall block_ok [b1; b2] /\
  blocks_bytes [b1; b2] = Some [1; 8; 2; 97; 2; 49; 4; 2; 98; 2; 50; 2; 97; 2; 51; 0] /\
  last_entry (concat (map mb_entries [b1; b2])) (str "a") (str "3").
Proof.
  assert (W : forall s, (length s <= 10)%nat -> wire_string s) by (intros s; unfold wire_string; p2; lia).
  split; [|split; [by vm_compute|]].
  - assert (K : forall l : list (gostring * gostring), Forall (fun kv => (length kv.1 <= 10)%nat /\ (length kv.2 <= 10)%nat) l ->
        Forall (fun kv => wire_string kv.1 /\ wire_string kv.2) l).
    { intros l Hl. eapply Forall_impl; [exact Hl|]. intros [k v] [? ?]. split; by apply W. }
    constructor; [|constructor; [|constructor]].
    + split; [done|]. split; [cbn; p2; lia|]. split; [apply K; repeat constructor; cbn; lia|]. cbn. zlia.
    + split; [done|]. split; [cbn; p2; lia|]. split; [apply K; repeat constructor; cbn; lia|]. done.
  - exists [(str "a", str "1"); (str "b", str "2")], []. split; [done|]. cbn. apply not_elem_of_nil.
Qed.
