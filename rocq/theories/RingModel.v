(** Model of buffer.go: the ring of recent spans.  The mutex makes writing a trace and [ToSlice] atomic. *)
From Verif Require Import Base SpanModel.

(** buffer.go:8-12 [SpansBuffer]; [position] is below 2^64 because the array is. *)
Record ring := Ring { r_pos : nat; r_spans : list span }.

(** buffer.go:14-17 [NewSpansBuffer]: [make] fills with zero values. *)
Definition new_ring (capacity : nat) : ring := Ring 0 (replicate capacity zero_span).

(** buffer.go:24-25; [None] is a panic (index out of range, which also precedes the division by zero). *)
Definition ring_put (r : ring) (s : span) : option ring :=
  if decide (r_pos r < length (r_spans r))%nat
  then Some (Ring ((r_pos r + 1) mod length (r_spans r)) (<[r_pos r := s]> (r_spans r)))
  else None.

(** buffer.go:23-26, one trace. *)
Fixpoint ring_trace (r : ring) (t : list span) : option ring :=
  match t with
  | [] => Some r
  | s :: t' => r' ← ring_put r s; ring_trace r' t'
  end.

(** buffer.go:19-30 [ReadFrom]. *)
Fixpoint read_from (r : ring) (ts : list (list span)) : option ring :=
  match ts with
  | [] => Some r
  | t :: ts' => r' ← ring_trace r t; read_from r' ts'
  end.

(** buffer.go:32-44 [ToSlice]. *)
Definition to_slice (r : ring) : list span := List.filter (fun s => negb (s_id s =? 0)) (r_spans r).
