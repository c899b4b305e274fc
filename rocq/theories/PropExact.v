(** Sharper forms of properties that do not hold as stated: C18, C21, C44, C48, C51. *)
From Verif Require Import Base SpanModel JsonModel CodecModel JsonSpec ParseSpec HandlerModel HandlerSpec RingModel RingSpec
  TreeModel FinishModel FinishSpec FinishWitness DatadogModel DatadogSpec ExactSpec ExactProofs EagerTheorems.

(** C18: a parser either ends after a number of steps that is linear in the length of the body and the number of reads,
    always with the same result, or never. *)
Theorem C18_ends_or_hangs_v2 :
  forall buf chunks e, (5 <= length buf)%nat ->
  (exists r, forall fuel, enough_steps chunks fuel -> ParseJsonV2 fuel buf (Src chunks e) = XDone r) \/
  (forall fuel, ParseJsonV2 fuel buf (Src chunks e) = XHang).
Proof. exact v2_ends_or_hangs_any. Qed.
Print Assumptions C18_ends_or_hangs_v2.

Theorem C18_ends_or_hangs_v1 :
  forall buf pool chunks e, (5 <= length buf)%nat ->
  (exists r, forall fuel, enough_steps chunks fuel -> ParseJsonV1 fuel buf pool (Src chunks e) = XDone r) \/
  (forall fuel, ParseJsonV1 fuel buf pool (Src chunks e) = XHang).
Proof. exact v1_ends_or_hangs_any. Qed.
Print Assumptions C18_ends_or_hangs_v1.

(** C18 over HTTP: every request is answered after so many steps, or never ... *)
Theorem C18_answered_or_never :
  forall env q chunks e, (5 <= length (n_buf env))%nat -> reads env q (Src chunks e) ->
  (exists acts, forall n, enough_steps chunks n -> handle (with_fuel n env) q = XDone acts) \/ (forall n, handle (with_fuel n env) q = XHang).
Proof. exact answered_or_never_any. Qed.
Print Assumptions C18_answered_or_never.

(** ... and never if a span has a member whose name does not fit into the buffer. *)
Theorem C18_never_answered :
  forall env q chunks e x tail n, q_endpoint q = EV2 -> reads env q (Src chunks e) -> (5 <= length (n_buf env) < length x)%nat ->
  Forall (fun c => c <> 34 /\ c <> 92) x -> concat chunks = str "[{""" ++ x ++ tail -> handle (with_fuel n env) q = XHang.
Proof. exact long_name_unanswered_any. Qed.
Print Assumptions C18_never_answered.

Example C18_exact_instance :
  let env := Env 200 (replicate 8 0) new_pool_entry Some (fun _ => None) in
  let q b := Request EV2 (str "application/json") [] (Src [str "[{"; b] (EndEOF true)) in
  handle env (q (str """name"":""abc""}]")) = XDone [Put (v2_to_span (SpanV2 0 0 0 (str "abc") [] ∅ [] 0 0)); Status 202] /\
  handle env (q (str """name"":""abcdefghi""}]")) = XHang /\ handle (with_fuel 1000 env) (q (str """name"":""abcdefghi""}]")) = XHang /\
  handle env (q (str """name"":[]")) = XDone [Status 400].
Proof. split; [by vm_compute|]. split; [by vm_compute|]. split; by vm_compute. Qed.

(** C21: of the strings of JSON, exactly those without the escapes b, f, n, r, t and without surrogate pairs are decoded
    to what they mean. *)
Theorem C21_exact :
  forall raw v w rest chunks e buf fuel, json_string raw v -> ws w -> concat chunks = w ++ 34 :: raw ++ 34 :: rest ->
  (length raw < length buf)%nat -> (5 <= length buf)%nat -> no_eager_error e -> (length chunks + length (concat chunks) < fuel)%nat ->
  ((exists st, ReadString fuel (new_parser (Src chunks e) buf) = POk (Token TString v) st) <-> simple_string raw v).
Proof. exact read_exact. Qed.
Print Assumptions C21_exact.

Example C21_exact_instance :
  json_string (str "a\t\u00e9") (97 :: 9 :: [195; 169]) /\ ~ simple_string (str "a\t\u00e9") (97 :: 9 :: [195; 169]) /\
  (exists st, ReadString 50 (new_parser (Src [str " ""a\t\u"; str "00e9"","] (EndEOF false)) (replicate 20 0)) = POk (Token TString (97 :: 116 :: [195; 169])) st).
Proof.
  split; [|split; [|by eexists; vm_compute]].
  - apply js_plain; [lia..|]. apply js_t. apply (js_u 48 48 101 57 233 [] []); [|unfold surrogate; lia|constructor]. exists 0, 0, 14, 9. unfold hex_is. lia.
  - intros H. inversion H as [|c l v H1 H2 H3| | | |]; subst. inversion H3; subst; done.
Qed.

(** C48: if the stored spans are different from each other and all have an id, they are returned in the order received
    exactly if at most as many as the capacity, or a multiple of it, were stored. *)
Theorem C48_exact :
  forall cap ts, (0 < cap)%nat -> NoDup (concat ts) -> Forall (fun s => s_id s <> 0) (concat ts) ->
  exists r, read_from (new_ring cap) ts = Some r /\
  (to_slice r = visible (lastn cap (concat ts)) <-> (length (concat ts) <= cap)%nat \/ (length (concat ts) mod cap = 0)%nat).
Proof. exact ring_order_exact. Qed.
Print Assumptions C48_exact.

Example C48_exact_instance :
  let sp i := Span i 0 1 [] [] 0 0 ∅ (Timings 0 0 0 0) in
  match read_from (new_ring 3) [[sp 1; sp 2]; [sp 3; sp 4; sp 5; sp 6]], read_from (new_ring 3) [[sp 1; sp 2]; [sp 3; sp 4; sp 5]] with
  | Some r, Some r' => map s_id (to_slice r) = [4; 5; 6] /\ map s_id (to_slice r') = [4; 5; 3]
  | _, _ => False
  end.
Proof. by vm_compute. Qed.

(** C44: when the input is closed nothing is emitted any more, whatever comes after; lost are exactly the spans whose trace
    did not leave the corrector since they were received, and there is no other way to wait in it. *)
Theorem C44_exact :
  forall evs st log more, run evs = (Some st, log) ->
  run (evs ++ EClose :: more) = (None, log ++ [LClose]) /\
  forall t i n0 n1 s, pending log t !! i = Some (n0, n1, s) <->
    exists l1 l2, log = l1 ++ LSpan n0 n1 s :: l2 /\ s_trace s = t /\ t <> 0 /\ s_id s <> 0 /\ ~ blacklisted l1 t /\
      (forall o, LOut t o ∉ l2) /\ length (pending l1 t) = i.
Proof. exact close_exact. Qed.
Print Assumptions C44_exact.

(** Of trace 9 the first span was emitted, the second came later and is lost. *)
Example C44_exact_instance :
  let sp i := Span i 0 9 [] [] 1600000000000000000 10 ∅ (Timings 0 0 0 0) in
  let k := plain_tick (seconds 8) in
  let evs := [ESpan map_to_list 0 0 (sp 5); ETick k; ESpan map_to_list (seconds 9) (seconds 9) (sp 6)] in
  pending (run evs).2 9 = [(seconds 9, seconds 9, sp 6)] /\ LOut 9 (Emitted [sp 5]) ∈ (run evs).2 /\
  (run (evs ++ [EClose; ETick k])).2 = (run evs).2 ++ [LClose].
Proof. split; [by vm_compute|]. split; [|by vm_compute]. apply elem_of_list_In. vm_compute. auto. Qed.

(** C51: after the input is closed nothing is put into a batch any more, whatever comes after; lost are exactly the spans
    received since the last flush, fewer than 1000; the accepted batches are sent if the sender goes on (C51_close_guarded). *)
Theorem C51_exact :
  forall evs st log more, Forall valid_devent evs -> drun evs = (st, log) ->
  exists st' log' chunks, drun (evs ++ DClose :: more) = (st', log') /\ received log' = received log /\ received log' = concat chunks ++ buffered log /\
    Forall2 grouped chunks (flushes log') /\ accepted log' = accepted log /\ Z.of_nat (length (buffered log)) < 1000.
Proof. exact close_buffer. Qed.
Print Assumptions C51_exact.

Example C51_exact_instance :
  let sp i := Span i 0 7 [] [] 0 0 ∅ (Timings 0 0 0 0) in
  let evs := [DTrace [sp 1; sp 2] 0; DTick 100 100; DTrace [sp 3] 200] in
  let more := [DTake map_to_list; DTrace [sp 4] 300; DTick 9000000000 9000000000; DTake map_to_list] in
  Forall valid_devent evs /\ buffered (drun evs).2 = [sp 3] /\ length (flushes (drun (evs ++ DClose :: more)).2) = 1%nat /\
  sent (drun (evs ++ DClose :: more)).2 = 1%nat.
Proof.
  split; [|split; [by vm_compute|split; by vm_compute]]. repeat (first [apply Forall_cons_2|apply Forall_nil_2]); cbn [valid_devent]; try exact I;
    repeat (first [apply Forall_cons_2|apply Forall_nil_2]); unfold span_ok; cbn; done.
Qed.
