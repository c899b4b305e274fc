(** Model of main.go:182-205: [forwardSpansToChannels], with slices that share arrays. *)
From Verif Require Import Base SpanModel.

(** A Go slice of spans: the array it points into and its length.  All slices here start at the first element of
    their array ([trace[:0]] keeps the start). *)
Record slice := Slice { sl_arr : nat; sl_len : nat }.

(** Arrays by address. *)
Notation heap := (list (list span)) (only parsing).

(** The user's [SpanConverter] (main.go:29) with any private state [S]: the new span and whether [err != nil].
    Simplification: it works on span values; it does not keep or change the spans' tag maps behind the scenes. *)
Definition converter (S : Type) : Type := S -> span -> S * (span * bool).

(** [trace[idx]]; [None] is a panic (index out of range). *)
Definition get (h : heap) (a idx : nat) : option span := l ← h !! a; l !! idx.

(** [a[n] = x], what [append] does while the capacity suffices. *)
Definition put (h : heap) (a n : nat) (x : span) : heap := alter (<[n := x]>) a h.

(** main.go:188-195, one iteration: [n] is [len(result)]. *)
Definition convert_one {S} (conv : converter S) (a : nat) (acc : S * heap * nat) (idx : nat) : option (S * heap * nat) :=
  let '(s, h, n) := acc in
  x ← get h a idx;
  let '(s', (c, err)) := conv s x in
  if err || (s_id c =? 0) || (s_trace c =? 0) then Some (s', h, n)
  else Some (s', put h a n c, (n + 1)%nat).

(** main.go:186-195: [range trace] evaluates the length once; [append] never reallocates because the capacity of
    [trace[:0]] is at least [len(trace)]. *)
Fixpoint convert_loop {S} (conv : converter S) (a : nat) (idxs : list nat) (acc : S * heap * nat) : option (S * heap * nat) :=
  match idxs with
  | [] => Some acc
  | i :: idxs' => acc' ← convert_one conv a acc i; convert_loop conv a idxs' acc'
  end.

(** main.go:183-200 [processTrace]: the same slice goes to every target. *)
Definition process_trace {S} (conv : converter S) (s : S) (h : heap) (sl : slice) : option (S * heap * slice) :=
  '(s', h', n) ← convert_loop conv (sl_arr sl) (seq 0 (sl_len sl)) (s, h, 0%nat);
  Some (s', h', Slice (sl_arr sl) n).

(** main.go:202-204: everything sent to each of [targets] channels (blocking is part of the pipeline model). *)
Fixpoint forward {S} (conv : converter S) (targets : nat) (s : S) (h : heap) (src : list slice) : option (S * heap * list (list slice)) :=
  match src with
  | [] => Some (s, h, replicate targets [])
  | sl :: src' =>
      '(s1, h1, r) ← process_trace conv s h sl;
      '(s2, h2, outs) ← forward conv targets s1 h1 src';
      Some (s2, h2, map (cons r) outs)
  end.

(** What a target sees when it iterates over a slice. *)
Definition read (h : heap) (sl : slice) : list span := take (sl_len sl) (default [] (h !! sl_arr sl)).
