(** Property C64: spans that are delivered again do not change a trace. *)
From Verif Require Import Base SpanModel TreeModel TreeSpec FinishModel FinishSpec FinishWitness ReplaySpec ReplayProofs.

(** C64: the spans of a trace, after a log was read to its end with any number of returns to earlier positions, are
    those after the log was read once.  Only the time of the last update differs. *)
Theorem C64_replay :
  forall ord now tr pre adds adds', map_order ord -> read_whole (map snd adds') (map snd adds) ->
  let t := add_all ord (pre ++ adds) (new_tree now tr) in
  let t' := add_all ord (pre ++ adds') (new_tree now tr) in
  t_spans t = t_spans t' /\ t_count t = t_count t' /\ t_id t = t_id t' /\ t_started t = t_started t'.
Proof. exact replay_tree. Qed.
Print Assumptions C64_replay.

(** C64: reading a middle part twice is such a reading, and so is the part of it that belongs to one trace. *)
Theorem C64_twice : forall (A : Type) (a b c : list A), read_whole (a ++ b ++ c) (a ++ b ++ b ++ c).
Proof. exact @again_read. Qed.
Print Assumptions C64_twice.

Theorem C64_part : forall (A : Type) (p : A -> bool) (log l : list A), read_whole log l -> read_whole (List.filter p log) (List.filter p l).
Proof. exact @read_whole_filter. Qed.
Print Assumptions C64_part.

(** C64: a trace that is emitted after redeliveries is the one that would have been emitted without them. *)
Theorem C64_emitted :
  forall evs l1 t out l2 log, Forall valid_event evs -> (run evs).2 = l1 ++ LOut t (Emitted out) :: l2 ->
  read_whole log (map snd (pending l1 t)) ->
  emission t (merged_spans t (map (fun s => (0, 0, s)) log)) out.
Proof. exact replay_emitted. Qed.
Print Assumptions C64_emitted.

(** C64 fails for spans that come again after their trace has been emitted: they are emitted a second time. *)
Theorem C64_late_refuted :
  exists evs t (l1 l2 l3 : list entry) s, Forall valid_event evs /\
    (run evs).2 = l1 ++ LOut t (Emitted [s]) :: l2 ++ LOut t (Emitted [s]) :: l3 /\
    read_whole [s] (omap (fun e => match e with ESpan _ _ _ s => Some s | _ => None end) evs).
Proof. exact replay_split. Qed.
Print Assumptions C64_late_refuted.

(** A client half, a server half and a second report of the client; the last two are delivered twice.  The second
    client report does not win over the server, but its tag fills a gap. *)
Example C64_instance :
  let c := Span 4 0 9 (str "get") (str "client") 100 50 {[str "k" := str "c"]} (Timings 100 150 0 0) in
  let s := Span 4 2 9 [] (str "server") 110 20 {[str "k" := str "s"]} (Timings 0 0 130 110) in
  let d := Span 4 0 9 (str "post") (str "other") 300 50 {[str "j" := str "d"]} (Timings 101 0 0 0) in
  let at_ l := imap (fun i x => (Z.of_nat i, x)) l in
  let view s := (s_parent s, s_name s, s_service s, s_ts s, s_dur s, map_to_list (s_tags s), s_timings s) in
  read_whole (map snd (at_ [c; s; d])) (map snd (at_ [c; s; d; s; d])) /\
  let spans := t_spans (add_all map_to_list (at_ [c; s; d; s; d]) (new_tree 0 9)) in
  map view spans = [(2, str "get", str "server", 100, 50, [(str "j", str "d"); (str "k", str "s")], Timings 101 150 130 110)].
Proof.
  split.
  - apply (again_read [_] [_; _] []).
  - by vm_compute.
Qed.
