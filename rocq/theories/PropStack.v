(** Property C98: the call stack of the JSON decoders. *)
From Verif Require Import Base SpanModel JsonModel CodecModel JsonSpec ParseSpec StackModel StackSpec StackProofs EagerStack.

(** C98: as long as the stack does not overflow, its size makes no difference. *)
Theorem C98_agrees_v2 :
  forall room fuel buf src r, ParseJsonV2_in room fuel buf src = Some r -> ParseJsonV2 fuel buf src = r.
Proof. exact v2_agrees. Qed.
Print Assumptions C98_agrees_v2.

Theorem C98_agrees_v1 :
  forall room fuel buf pool src r, ParseJsonV1_in room fuel buf pool src = Some r -> ParseJsonV1 fuel buf pool src = r.
Proof. exact v1_agrees. Qed.
Print Assumptions C98_agrees_v1.

(** C98: a body with fewer opening brackets and braces than there may be open calls does not overflow the stack,
    whatever it is otherwise. *)
Theorem C98_enough_v2 :
  forall room fuel buf chunks e, (5 <= length buf)%nat -> (opens (concat chunks) < room)%nat ->
  ParseJsonV2_in room fuel buf (Src chunks e) = Some (ParseJsonV2 fuel buf (Src chunks e)).
Proof. exact v2_enough_any. Qed.
Print Assumptions C98_enough_v2.

Theorem C98_enough_v1 :
  forall room fuel buf pool chunks e, (5 <= length buf)%nat -> (opens (concat chunks) < room)%nat ->
  ParseJsonV1_in room fuel buf pool (Src chunks e) = Some (ParseJsonV1 fuel buf pool (Src chunks e)).
Proof. exact v1_enough_any. Qed.
Print Assumptions C98_enough_v1.

(** C98: a value is skipped if there is room for one open call for each of its levels; otherwise the stack overflows. *)
Theorem C98_height :
  forall room fuel buf chunks e w v l rest, concat chunks = w ++ l ++ rest -> ws w -> loose (length buf) v l -> delimited v rest ->
  (5 <= length buf)%nat -> no_eager_error e -> (length chunks + length (concat chunks) < fuel)%nat -> (2 * length l < fuel)%nat ->
  let st := new_parser (Src chunks e) buf in
  Skip_in room fuel st = if (height v <=? room)%nat then Some (Skip fuel st) else None.
Proof. exact Skip_height. Qed.
Print Assumptions C98_height.

(** C98: no stack is large enough: the decoders for both versions go over any limit on a body that is hardly longer than it. *)
Theorem C98_overflow_v2 :
  forall room fuel buf chunks e, concat chunks = brackets (S room) -> (5 <= length buf)%nat -> no_eager_error e ->
  (length chunks + length (concat chunks) < fuel)%nat -> (2 * room < fuel)%nat -> ParseJsonV2_in room fuel buf (Src chunks e) = None.
Proof. exact v2_overflow. Qed.
Print Assumptions C98_overflow_v2.

Theorem C98_overflow_v1 :
  forall room fuel buf pool chunks e, concat chunks = brackets (S room) -> (5 <= length buf)%nat -> no_eager_error e ->
  (length chunks + length (concat chunks) < fuel)%nat -> (2 * room < fuel)%nat -> ParseJsonV1_in room fuel buf pool (Src chunks e) = None.
Proof. exact v1_overflow. Qed.
Print Assumptions C98_overflow_v1.

(** A value with four levels; room for three calls is not enough to skip it. *)
Example C98_instance :
  let st := new_parser (Src [str " [1,[{""a["":"; str "null}],2] "] (EndEOF false)) (replicate 8 0) in
  height (JArr [JNum (str "1"); JArr [JObj [(str "a[", JNull)]]; JNum (str "2")]) = 4%nat /\
  Skip_in 4 60 st = Some (Skip 60 st) /\ (exists st', Skip 60 st = POk tt st') /\ Skip_in 3 60 st = None.
Proof. split; [done|]. split; [by vm_compute|]. split; [eexists; by vm_compute|by vm_compute]. Qed.

(** Nine opening brackets in a body that decodes within one call, since nothing but a number is skipped; and eight brackets that need eight. *)
Example C98_instance_body :
  let body := str "[{""id"":""1"",""traceId"":""2"",""name"":""[[[{{{"",""x"":7,""tags"":{}}]" in
  opens body = 9%nat /\
  (exists s, ParseJsonV2 100 (replicate 16 0) (Src [body] (EndEOF true)) = XDone (Some [s]) /\
     ParseJsonV2_in 1 100 (replicate 16 0) (Src [body] (EndEOF true)) = Some (XDone (Some [s])) /\ s_name s = str "[[[{{{") /\
  ParseJsonV2_in 7 100 (replicate 16 0) (Src [brackets 8] (EndEOF true)) = None /\
  ParseJsonV2_in 8 100 (replicate 16 0) (Src [brackets 8] (EndEOF true)) = Some (XDone None) /\
  ParseJsonV1_in 7 100 (replicate 16 0) [] (Src [brackets 8] (EndEOF true)) = None.
Proof.
  split; [done|]. split.
  { eexists. split; [by vm_compute|]. split; by vm_compute. }
  split; [by vm_compute|]. split; by vm_compute.
Qed.
