(** Property C110: identifiers are names. *)
From Verif Require Import Base SpanModel TreeModel TreeSpec FinishModel FinishSpec ShiftWitness RenameSpec RenameProofs RenameRun RenameWitness.

(** C110: two runs that differ by a renaming of all identifiers decide alike at all times; emitted traces have the same spans under
    the other names. *)
Theorem C110_run :
  forall f g, renaming f g -> forall evs evs', Forall2 (renamed_event f) evs evs' -> Forall valid_event evs -> Forall valid_event evs' ->
  Forall2 (renamed_entry f) (run evs).2 (run evs').2.
Proof. exact rename_run. Qed.
Print Assumptions C110_run.

(** C110: the order of the spans in an emitted trace does depend on the identifiers. *)
Theorem C110_order_refuted :
  exists f g evs evs' i t t' out out', renaming f g /\ Forall2 (renamed_event f) evs evs' /\ Forall valid_event evs /\ Forall valid_event evs' /\
  (run evs).2 !! i = Some (LOut t (Emitted out)) /\ (run evs').2 !! i = Some (LOut t' (Emitted out')) /\ out' <> map (renamed f) out.
Proof. exact order_matters. Qed.
Print Assumptions C110_order_refuted.

(** The runs of C109, under any other names; with [mirror] the order of all names is reversed. *)
Example C110_instance :
  forall f g n, renaming f g ->
  Forall2 (renamed_event f) (order n autumn) (other_names f g (order n autumn)) /\ Forall valid_event (order n autumn) /\ Forall valid_event (other_names f g (order n autumn)).
Proof. exact order_renamed. Qed.
Example C110_mirror : renaming mirror mirror.
Proof. exact mirror_renaming. Qed.
Example C110_instance_log :
  List.filter (fun e => match e with LOut _ _ => true | _ => false end) (run (other_names mirror mirror (order 0 autumn))).2 =
  [ LOut 92 (Emitted [ Span 97 92 92 (str "fake-root") (str "fake-root") (autumn + 2000) 5500 ∅ (Timings 0 0 0 0);
                       Span 96 97 92 (str "get") (str "shop") (autumn + 2000) 1000 ∅ (Timings 0 0 0 0); Span 95 97 92 (str "get") (str "shop") (autumn + 6000) 1500 ∅ (Timings 0 0 0 0) ]);
    LOut 93 (Emitted [ Span 99 0 93 (str "get") (str "stock") (autumn + 1000) 9000 ∅ (Timings (autumn + 1000) (autumn + 10000) (autumn + 110000) (autumn + 105000));
                       Span 98 99 93 (str "query") (str "stock") (autumn + 4000) 3000 ∅ (Timings 0 0 0 0) ]) ].
Proof. by vm_compute. Qed.
