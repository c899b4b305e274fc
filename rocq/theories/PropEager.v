(** Property C104: bodies whose reader fails together with its last bytes. *)
From Verif Require Import Base SpanModel JsonModel CodecModel JsonSpec ParseSpec JaegerModel HandlerModel HandlerSpec StdJsonModel ExactSpec EagerProofs EagerTheorems.

(** C104: bytes that come together with the error are lost.  The request is answered as one whose reader fails on its own after
    only some of the bytes. *)
Theorem C104_cut :
  forall env q cs c, q_endpoint q = EV1 \/ q_endpoint q = EV2 -> c <> [] -> reads env q (Src (cs ++ [c]) (EndErr true)) ->
  exists chunks lost, lost <> [] /\ concat (cs ++ [c]) = concat chunks ++ lost /\
  forall q', q_endpoint q' = q_endpoint q -> q_type q' = q_type q -> reads env q' (Src chunks (EndErr false)) -> handle env q = handle env q'.
Proof. exact handle_cut. Qed.
Print Assumptions C104_cut.

(** C104: the answer is that for the same reads with the error afterwards, or 400 and nothing is forwarded. *)
Theorem C104_same_or_rejected :
  forall env q q' chunks, q_endpoint q = EV1 \/ q_endpoint q = EV2 -> q_endpoint q' = q_endpoint q -> q_type q' = q_type q ->
  reads env q (Src chunks (EndErr true)) -> reads env q' (Src chunks (EndErr false)) ->
  handle env q = handle env q' \/ exists acts, handle env q = XDone acts /\ rejects acts.
Proof. exact handle_lazy. Qed.
Print Assumptions C104_same_or_rejected.

(** C104: never answered exactly if the request with the error afterwards is never answered. *)
Theorem C104_unanswered :
  forall env q q' chunks, (5 <= length (n_buf env))%nat -> q_endpoint q' = q_endpoint q -> q_type q' = q_type q ->
  reads env q (Src chunks (EndErr true)) -> reads env q' (Src chunks (EndErr false)) ->
  ((forall n, handle (with_fuel n env) q = XHang) <-> (forall n, handle (with_fuel n env) q' = XHang)).
Proof. exact handle_hang_lazy. Qed.
Print Assumptions C104_unanswered.

(** C104 for the parsers. *)
Theorem C104_parse_v2 :
  forall fuel buf chunks, ParseJsonV2 fuel buf (Src chunks (EndErr true)) = ParseJsonV2 fuel buf (Src chunks (EndErr false)) \/
  ParseJsonV2 fuel buf (Src chunks (EndErr true)) = XDone None.
Proof. exact v2_lazy. Qed.
Print Assumptions C104_parse_v2.

Theorem C104_parse_v1 :
  forall fuel buf pool chunks, ParseJsonV1 fuel buf pool (Src chunks (EndErr true)) = ParseJsonV1 fuel buf pool (Src chunks (EndErr false)) \/
  exists pool', ParseJsonV1 fuel buf pool (Src chunks (EndErr true)) = XDone (None, pool').
Proof. exact v1_lazy. Qed.
Print Assumptions C104_parse_v1.

(** Three bodies with the error together with the last bytes: a document that ends before them is accepted; one that ends with
    them is rejected, although it is accepted with the error afterwards; an overlong name is not answered in either case. *)
Example C104_instance :
  let env := Env 200 (replicate 8 0) new_pool_entry (fun _ => None) jaeger_body in
  let q chunks eager := Request EV2 (str "application/json") [] (Src chunks (EndErr eager)) in
  (forall chunks eager, reads env (q chunks eager) (Src chunks (EndErr eager))) /\
  (exists s, handle env (q [str "[{""id"":""1f""}"; str "]"; str "more"] true) = XDone [Put s; Status 202] /\ s_id s = 31) /\
  handle env (q [str "[{""id"":""1f""}"; str "]more"] true) = XDone [Status 400] /\
  (exists s, handle env (q [str "[{""id"":""1f""}"; str "]more"] false) = XDone [Put s; Status 202] /\ s_id s = 31) /\
  handle env (q [str "[{""abcdefghi"":1}"; str "]"] true) = XHang /\ handle env (q [str "[{""abcdefghi"":1}"; str "]"] false) = XHang.
Proof.
  cbv zeta. split; [right; split; [discriminate|reflexivity]|]. split; [eexists; by vm_compute|]. split; [by vm_compute|]. split; [eexists; by vm_compute|]. split; by vm_compute.
Qed.
