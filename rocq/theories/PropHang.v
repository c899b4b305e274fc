(** C89: when exactly a request is never answered. *)
From Verif Require Import Base SpanModel JsonModel CodecModel JsonSpec ParseSpec HandlerModel HandlerSpec ExactSpec HangSpec HangHttp HangBack EagerTheorems.

(** C89: decoding never ends exactly if a string or number that is in order where it stands does not fit into the buffer. *)
Theorem C89_exact_v2 :
  forall buf chunks e, (5 <= length buf)%nat ->
  (forall fuel, ParseJsonV2 fuel buf (Src chunks e) = XHang) <-> stuck ParseJsonV2 (length buf) (concat chunks).
Proof. exact v2_hang_exact_any. Qed.
Print Assumptions C89_exact_v2.

Theorem C89_exact_v1 :
  forall pool buf chunks e, (5 <= length buf)%nat ->
  (forall fuel, ParseJsonV1 fuel buf pool (Src chunks e) = XHang) <-> stuck (v1_parser pool) (length buf) (concat chunks).
Proof. exact v1_hang_exact_any. Qed.
Print Assumptions C89_exact_v1.

(** C89 over HTTP. *)
Theorem C89_unanswered :
  forall env q chunks e, (5 <= length (n_buf env))%nat -> reads env q (Src chunks e) ->
  (forall n, handle (with_fuel n env) q = XHang) <->
  (q_endpoint q = EV2 /\ stuck ParseJsonV2 (length (n_buf env)) (concat chunks) \/
   q_endpoint q = EV1 /\ contains (q_type q) (str "application/json") = true /\ stuck (v1_parser (n_pool env)) (length (n_buf env)) (concat chunks)).
Proof. exact unanswered_exact_any. Qed.
Print Assumptions C89_unanswered.

(** The value of an unknown member, a string of nine bytes, catches a parser with a buffer of eight bytes; where an object must stand it does not. *)
Example C89_instance :
  stuck ParseJsonV2 8 (str "[{""x"":[""123456789""]}]") /\ ~ stuck ParseJsonV2 8 (str "[""123456789""]") /\
  ~ stuck ParseJsonV2 8 (str "[{""x"":[""1234567""]}]") /\ ~ stuck ParseJsonV2 8 (str "[{""id"":123456789}]") /\
  stuck ParseJsonV2 8 (str "[{""x"":-23456789}]") /\ ~ stuck (v1_parser []) 8 (str "[],""123456789""").
Proof.
  assert (B : (5 <= length (replicate 8 0%Z))%nat) by (cbn; lia). split; [|split; [|split; [|split; [|split]]]].
  - exists (str "[{""x"":["), 34, (str "123456789""]}]"). split; [done|]. split; [|split].
    + apply tk_bracket; [auto|]. apply tk_bracket; [auto|]. apply (tk_string (str "x") (str ":[")); [by repeat constructor|].
      apply (tk_sep 58); [apply Forall_singleton; lia|]. apply tk_bracket; [auto|constructor].
    + left. split; [done|]. split; [cbn; lia|]. intros s r E Hs. do 8 (destruct s as [|? s]; [discriminate E|injection E as <- E]). cbn. lia.
    + exists 34, (str """]}]"). split; [by left|]. split.
      * exists 60%nat, (replicate 8 0). eexists. split; [done|]. by vm_compute.
      * apply (not_accepted 60 (replicate 8 0)); [done|]. by vm_compute.
  - apply (not_stuck 60 (replicate 8 0) [str "[""123456789""]"] (EndEOF true) None B); [done|]. by vm_compute.
  - eapply (not_stuck 60 (replicate 8 0) [str "[{""x"":[""1234567""]}]"] (EndEOF true) _ B); [done|]. by vm_compute.
  - eapply (not_stuck 60 (replicate 8 0) [str "[{""id"":123456789}]"] (EndEOF true) _ B); [done|]. by vm_compute.
  - apply (is_stuck 60 (replicate 8 0) [str "[{""x"":-23456789}]"] (EndEOF true) B); [done| |by vm_compute]. split; cbn; lia.
  - eapply (not_stuck1 60 [] (replicate 8 0) [str "[],""123456789"""] (EndEOF true) _ B); [done|]. by vm_compute.
Qed.
