(** Model of the whole program without Kafka (main.go:69-175): HTTP handlers, the corrector and the pipeline behind it. *)
From Verif Require Import Base SpanModel JsonModel CodecModel HandlerModel TreeModel FinishModel ForwardModel PipelineModel.

(** Capacities: [httpInputSpans] (main.go:109) and those of the pipeline. *)
Record sysconfig := SysConfig { z_input : nat; z_pipe : config }.
Definition main_sysconfig : sysconfig := SysConfig 256 main_config.

(** [y_handlers]: for each request, what its handler did and has still to do.  [y_input]: the channel.  [y_corr],
    [y_log]: state and record of the corrector; [y_out]: traces that the running call of [finishTraces] has still to
    send (it blocks in the send, correct.go:282; they were taken out of the map one by one, in this order).  [y_puts] is
    ghost: who put what on the channel. *)
Record ystate (S : Type) := YState {
  y_handlers : list (list action * list action);
  y_input : list span; y_puts : list (nat * span);
  y_corr : fstate; y_log : list entry; y_out : list (list span);
  y_pipe : pstate S }.
Arguments YState {S}. Arguments y_handlers {S}. Arguments y_input {S}. Arguments y_puts {S}. Arguments y_corr {S}.
Arguments y_log {S}. Arguments y_out {S}. Arguments y_pipe {S}.

Definition yinit {S} (cfg : sysconfig) (s : S) : ystate S := YState [] [] [] initial [] [] (pinit (z_pipe cfg) s).

(** The traces sent to the output channel, in order. *)
Definition emitted (log : list entry) : list (list span) := concat (map (fun e => match e with LOut _ (Emitted l) => [l] | _ => [] end) log).

(** Atomic steps.  [YRequest acts]: a request was parsed, its handler goes on to do [acts] ([HandlerModel]).  [YAct i]:
    its next action.  [YRecv], [YTick]: one round of the corrector's loop (not while it has something to send).  [YSend]:
    a send of [finishTraces].  [YPipe]: a step of the goroutines behind. *)
Inductive yevent :=
  | YRequest (acts : list action)
  | YAct (i : nat)
  | YRecv (ord : gmap gostring gostring -> list (gostring * gostring)) (n0 n1 : Z)
  | YTick (k : tick)
  | YSend
  | YPipe (e : pevent).

Definition ystep {S} (cfg : sysconfig) (conv : converter S) (e : yevent) (st : ystate S) : result (ystate S) :=
  let '(YState hs inp puts corr log out pipe) := st in
  match e with
  | YRequest acts => Next (YState (hs ++ [([], acts)]) inp puts corr log out pipe)
  | YAct i =>
      match hs !! i with
      | Some (did, Put s :: todo) =>
          if decide (length inp < z_input cfg)%nat
          then Next (YState (<[i := (did ++ [Put s], todo)]> hs) (inp ++ [s]) (puts ++ [(i, s)]) corr log out pipe) else Blocked
      | Some (did, Status c :: todo) => Next (YState (<[i := (did ++ [Status c], todo)]> hs) inp puts corr log out pipe)
      | _ => Blocked end
  | YRecv ord n0 n1 =>
      match out, inp with
      | [], s :: inp' => Next (YState hs inp' puts (receive ord n0 n1 s corr) (log ++ [LSpan n0 n1 s]) [] pipe)
      | _, _ => Blocked end
  | YTick k =>
      match out with
      | [] => let '(corr', l) := finish_traces k corr in Next (YState hs inp puts corr' (log ++ l) (emitted l) pipe)
      | _ => Blocked end
  | YSend =>
      match out with
      | t :: out' =>
          match pstep (z_pipe cfg) conv (PInput t) pipe with
          | Next pipe' => Next (YState hs inp puts corr log out' pipe')
          | Blocked => Blocked | Panicked => Panicked end
      | [] => Blocked end
  | YPipe e =>
      match e with
      | PInput _ => Blocked
      | _ => match pstep (z_pipe cfg) conv e pipe with
             | Next pipe' => Next (YState hs inp puts corr log out pipe')
             | Blocked => Blocked | Panicked => Panicked end
      end
  end.

Fixpoint yrun {S} (cfg : sysconfig) (conv : converter S) (evs : list yevent) (st : ystate S) : result (ystate S) :=
  match evs with
  | [] => Next st
  | e :: evs' => match ystep cfg conv e st with Next st' => yrun cfg conv evs' st' | Blocked => Blocked | Panicked => Panicked end
  end.
