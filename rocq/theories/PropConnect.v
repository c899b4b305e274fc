(** Property C77: an emitted trace is one tree, up to spans that descend from themselves. *)
From Verif Require Import Base IdModel SpanModel TreeModel TreeSpec FinishModel FinishSpec FinishWitness ForwardModel ForwardSpec ConnectSpec ConnectProofs.

(** C77: an emitted trace has exactly one root, and every span of it either descends from this root or from a span
    that is its own ancestor, never both. *)
Theorem C77_tree :
  forall evs l1 t out l2, Forall valid_event evs -> (run evs).2 = l1 ++ LOut t (Emitted out) :: l2 ->
  exists root, one_root out root /\
    forall s, s ∈ out -> (connected out root s /\ ~ circular out s) \/ (circular out s /\ ~ connected out root s).
Proof. exact emitted_tree. Qed.
Print Assumptions C77_tree.

(** C77: so without circles all spans descend from the root. *)
Theorem C77_acyclic :
  forall evs l1 t out l2 (rank : span -> Z), Forall valid_event evs -> (run evs).2 = l1 ++ LOut t (Emitted out) :: l2 ->
  (forall p c, p ∈ out -> child out p c -> rank p < rank c) ->
  exists root, one_root out root /\ forall s, s ∈ out -> connected out root s.
Proof. exact emitted_acyclic. Qed.
Print Assumptions C77_acyclic.

(** C77: spans on or below a circle are emitted as they were received and merged; their times are not corrected. *)
Theorem C77_circular_unchanged :
  forall evs l1 t out l2 s, Forall valid_event evs -> (run evs).2 = l1 ++ LOut t (Emitted out) :: l2 ->
  s ∈ out -> circular out s -> s ∈ merged_spans t (pending l1 t).
Proof. exact circular_unchanged. Qed.
Print Assumptions C77_circular_unchanged.

(** C77: such spans are emitted: it is false that all spans of an emitted trace descend from its root. *)
Theorem C77_circular_refuted :
  exists evs l1 t out l2 s, Forall valid_event evs /\ (run evs).2 = l1 ++ LOut t (Emitted out) :: l2 /\ s ∈ out /\
  forall root, root_candidate out root -> ~ connected out root s.
Proof. exact circle_refuted. Qed.
Print Assumptions C77_circular_refuted.

(** C77: the targets get a trace with exactly one root too, if the converter leaves the ids alone and no emitted span
    has the id 0. *)
Theorem C77_delivered :
  forall evs l1 t out l2 (S : Type) (conv : converter S) s s' out', Forall valid_event evs ->
  (run evs).2 = l1 ++ LOut t (Emitted out) :: l2 -> keeps_ids conv -> 0 ∉ ids out -> converts conv s out s' out' ->
  ids out' = ids out /\ exists root, one_root out' root.
Proof. exact @delivered_one_root. Qed.
Print Assumptions C77_delivered.

(** C77: the injected root of several spans without a parent has the id 0, and is dropped before the targets: they get
    a trace with several roots. *)
Theorem C77_delivered_refuted :
  exists evs l1 t out l2 (S : Type) (conv : converter S) s s' out' r r', Forall valid_event evs /\
  (run evs).2 = l1 ++ LOut t (Emitted out) :: l2 /\ keeps_ids conv /\ converts conv s out s' out' /\
  root_candidate out' r /\ root_candidate out' r' /\ r <> r'.
Proof. exact orphans_refuted. Qed.
Print Assumptions C77_delivered_refuted.

(** Two spans below the circle 3, 4; two others in a tree; a trace of three generations whose spans name a parent
    that is missing; a trace whose circle is all there is. *)
Example C77_instance :
  let evs := arriving [node 5 0 9; node 4 3 9; node 3 4 9; node 2 3 9; node 7 5 9;
                       node 21 20 8; node 22 20 8; node 23 22 8; node 31 32 7; node 32 31 7] in
  let short e := match e with LOut t (Emitted l) => [(t, 1, map (fun s => (s_id s, s_parent s)) l)] | LOut t NoRoot => [(t, 2, [])] | _ => [] end in
  Forall valid_event circle_run /\ circular circle_out (node 2 3 9) /\
  concat (map short (run evs).2) =
    [(8, 1, [(23, 22); (22, 20); (21, 20); (20, 8)]); (9, 1, [(7, 5); (5, 0); (4, 3); (3, 4); (2, 3)]); (7, 2, [])] /\
  keeps_ids unchanged /\ converts unchanged tt orphans_out tt [node 5 0 9; node 4 0 9; node 3 4 9].
Proof.
  split; [exact circle_valid|]. split; [exact circle_circular|]. split; [by vm_compute|]. split; [exact unchanged_keeps|exact orphans_converted].
Qed.
