(** Vocabulary for C62: what the metrics should say about a record. *)
From Verif Require Import Base SpanModel TreeModel FinishModel FinishSpec MetricsModel.

(** Something for each entry of a record, which may look at the record before it. *)
Fixpoint collect_from {A} (f : list entry -> entry -> list A) (before log : list entry) : list A :=
  match log with [] => [] | e :: log' => f before e ++ collect_from f (before ++ [e]) log' end.
Definition collect {A} (f : list entry -> entry -> list A) (log : list entry) : list A := collect_from f [] log.
Definition addup (l : list Z) : Z := foldr Z.add 0 l.

(** What a meter should count. *)
Definition counts (m : meter) (before : list entry) (e : entry) : list Z :=
  match m, e with
  | MMerged, LSpan _ _ s =>  (* accepted, and a span with its id waits already *)
      if decide (s_trace s <> 0 /\ s_id s <> 0 /\ (status before (s_trace s)).1 = false /\ s_id s ∈ pending_ids before (s_trace s)) then [1] else []
  | MBlacklisted, LSpan _ _ s =>
      if decide (s_trace s <> 0 /\ s_id s <> 0 /\ (status before (s_trace s)).1 = true) then [1] else []
  | MCorrected, LOut _ (Emitted _) => [1]
  | MFinished, LOut _ (Emitted _) => [1]
  | MNoRoot, LOut _ NoRoot => [1]
  | MTooLarge, LOut _ TooLarge => [1]
  | MTooOld, LOut _ TooOld => [1]
  | MSpansLost, LOut t Overload => [counted t (pending before t)]
  | MTracesLost, LOut _ Overload => [1]
  | _, _ => []
  end.
(** The size of each trace that left other than by overload. *)
Definition sizes (before : list entry) (e : entry) : list Z :=
  match e with LOut _ Overload => [] | LOut t _ => [counted t (pending before t)] | _ => [] end.

(** What the library was told. *)
Definition marks (m : meter) (ops : list mop) : Z :=
  addup (concat (map (fun o => match o with Mark m' n => if decide (m' = m) then [n] else [] | _ => [] end) ops)).
Definition size_updates (ops : list mop) : list Z := concat (map (fun o => match o with Size n => [n] | _ => [] end) ops).
(** The last values of the gauges. *)
Definition gauges (ops : list mop) : option (Z * Z) :=
  foldl (fun acc o => match o with
    | Spans n => Some (n, default 0 (snd <$> acc)) | Traces n => Some (default 0 (fst <$> acc), n) | _ => acc end) None ops.
(** The traces lost to overload in a record. *)
Definition lost (log : list entry) : Z := addup (collect (counts MTracesLost) log).
