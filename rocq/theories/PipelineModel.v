(** Model of the goroutines behind the corrector: main.go:80-106 and 182-205 (forwarder), and the loops of the targets
    (buffer.go:19-30, datadog/converter.go:71-127), which iterate over the traces that they receive. *)
From Verif Require Import Base SpanModel ForwardModel.

(** Capacities of the channels: [processedSpans] and the targets (64; 256 and 256, main.go:105, 87, 96). *)
Record config := Config { g_source : nat; g_targets : list nat }.
Definition main_config : config := Config 64 [256; 256]%nat.

(** The forwarder (main.go:182-205): waiting for a trace; at index [idx] of the loop with [n] results; about to send
    the result to target [k]. *)
Inductive forwarder := FIdle | FConv (sl : slice) (idx n : nat) | FSend (sl : slice) (k : nat).

(** A target: what it got from the traces finished so far, and the trace it is iterating over (position, spans read). *)
Record reader := Reader { rd_log : list (list span); rd_cur : option (slice * nat * list span) }.

Record pstate (S : Type) := PState {
  p_heap : list (list span); p_conv : S; p_source : list slice;
  p_fwd : forwarder; p_queues : list (list slice); p_readers : list reader }.
Arguments PState {S}. Arguments p_heap {S}. Arguments p_conv {S}. Arguments p_source {S}.
Arguments p_fwd {S}. Arguments p_queues {S}. Arguments p_readers {S}.

Definition pinit {S} (cfg : config) (s : S) : pstate S :=
  PState [] s [] FIdle (map (fun _ => []) (g_targets cfg)) (map (fun _ => Reader [] None) (g_targets cfg)).

(** [Blocked]: the step is not possible now.  [Panicked]: index out of range. *)
Inductive result (A : Type) := Next (a : A) | Blocked | Panicked.
Arguments Next {A}. Arguments Blocked {A}. Arguments Panicked {A}.

(** Atomic steps.  [PInput t]: the corrector puts a trace, in an array of its own, on the channel (correct.go:282). *)
Inductive pevent :=
  | PInput (t : list span)
  | PTake | PConv | PDone | PSend | PNext
  | PRecv (i : nat) | PRead (i : nat) | PFinish (i : nat).

Definition pstep {S} (cfg : config) (conv : converter S) (e : pevent) (st : pstate S) : result (pstate S) :=
  let '(PState h s src f qs rs) := st in
  match e with
  | PInput t =>
      if decide (length src < g_source cfg)%nat
      then Next (PState (h ++ [t]) s (src ++ [Slice (length h) (length t)]) f qs rs) else Blocked
  | PTake =>
      match f, src with FIdle, sl :: src' => Next (PState h s src' (FConv sl 0 0) qs rs) | _, _ => Blocked end
  | PConv =>
      match f with
      | FConv sl idx n =>
          if decide (idx < sl_len sl)%nat then
            match convert_one conv (sl_arr sl) (s, h, n) idx with
            | Some (s', h', n') => Next (PState h' s' src (FConv sl (idx + 1) n') qs rs)
            | None => Panicked end
          else Blocked
      | _ => Blocked end
  | PDone =>
      match f with
      | FConv sl idx n => if decide (idx = sl_len sl) then Next (PState h s src (FSend (Slice (sl_arr sl) n) 0) qs rs) else Blocked
      | _ => Blocked end
  | PSend =>
      match f with
      | FSend sl k =>
          match qs !! k, g_targets cfg !! k with
          | Some q, Some cap => if decide (length q < cap)%nat then Next (PState h s src (FSend sl (k + 1)) (<[k := q ++ [sl]]> qs) rs) else Blocked
          | _, _ => Blocked end
      | _ => Blocked end
  | PNext =>
      match f with
      | FSend sl k => if decide (k = length (g_targets cfg)) then Next (PState h s src FIdle qs rs) else Blocked
      | _ => Blocked end
  | PRecv i =>
      match qs !! i, rs !! i with
      | Some (sl :: q), Some (Reader log None) => Next (PState h s src f (<[i := q]> qs) (<[i := Reader log (Some (sl, 0%nat, []))]> rs))
      | _, _ => Blocked end
  | PRead i =>
      match rs !! i with
      | Some (Reader log (Some (sl, pos, acc))) =>
          if decide (pos < sl_len sl)%nat then
            match get h (sl_arr sl) pos with
            | Some x => Next (PState h s src f qs (<[i := Reader log (Some (sl, (pos + 1)%nat, acc ++ [x]))]> rs))
            | None => Panicked end
          else Blocked
      | _ => Blocked end
  | PFinish i =>
      match rs !! i with
      | Some (Reader log (Some (sl, pos, acc))) =>
          if decide (pos = sl_len sl) then Next (PState h s src f qs (<[i := Reader (log ++ [acc]) None]> rs)) else Blocked
      | _ => Blocked end
  end.

(** A run: all steps possible. *)
Fixpoint prun {S} (cfg : config) (conv : converter S) (evs : list pevent) (st : pstate S) : result (pstate S) :=
  match evs with
  | [] => Next st
  | e :: evs' => match pstep cfg conv e st with Next st' => prun cfg conv evs' st' | Blocked => Blocked | Panicked => Panicked end
  end.
