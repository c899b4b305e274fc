(** Vocabulary for C57-C59: the whole program. *)
From Verif Require Import Base SpanModel JsonModel CodecModel HandlerModel HandlerSpec TreeModel TreeSpec FinishModel FinishSpec ForwardModel ForwardSpec PipelineModel PipelineSpec SystemModel.

(** The handlers do what [HandlerModel] says, the run-time system what Go says. *)
Definition valid_yevent (e : yevent) : Prop :=
  match e with
  | YRequest acts => exists env q, handle env q = XDone acts
  | YRecv ord _ _ => map_order ord
  | YTick k => valid_tick k
  | _ => True
  end.

Definition yreachable {S} (cfg : sysconfig) (conv : converter S) (s : S) (evs : list yevent) (st : ystate S) : Prop :=
  Forall valid_yevent evs /\ yrun cfg conv evs (yinit cfg s) = Next st.

(** What the requests ask for. *)
Definition requests (evs : list yevent) : list (list action) := concat (map (fun e => match e with YRequest acts => [acts] | _ => [] end) evs).
Definition puts_of (acts : list action) : list span := concat (map (fun a => match a with Put s => [s] | Status _ => [] end) acts).
Definition by_handler (i : nat) (puts : list (nat * span)) : list span := map snd (filter (fun p => p.1 = i) puts).

(** Spans that the corrector received. *)
Definition received (log : list entry) : list span := concat (map (fun e => match e with LSpan _ _ s => [s] | _ => [] end) log).

(** Steps of the program itself, other than ticks. *)
Definition yinternal (e : yevent) : Prop := match e with YRequest _ | YTick _ => False | _ => True end.
Definition ystopped {S} (cfg : sysconfig) (conv : converter S) (st : ystate S) : Prop :=
  forall e, yinternal e -> ystep cfg conv e st = Blocked.
