(** What concerns one trace, for C103. *)
From Verif Require Import Base SpanModel FinishModel FinishSpec.

(** The events that concern [t]: its own spans, the checks and the end of the input. *)
Definition own (t : Z) (e : event) : bool := match e with ESpan _ _ _ s => bool_decide (s_trace s = t) | _ => true end.

(** The same span at the same times; checks at the same times. *)
Definition alike (e e' : event) : Prop :=
  match e, e' with
  | ESpan _ n0 n1 s, ESpan _ n0' n1' s' => n0 = n0' /\ n1 = n1' /\ s = s'
  | ETick k, ETick k' => k_now1 k = k_now1 k' /\ k_now2 k = k_now2 k'
  | EClose, EClose => True
  | _, _ => False
  end.

(** The part of a record that is about [t]; the load is not. *)
Definition about (t : Z) (log : list entry) : list entry :=
  omap (fun e =>
    match e with
    | LSpan _ _ s => if decide (s_trace s = t) then Some e else None
    | LTick n1 n2 _ => Some (LTick n1 n2 0)
    | LOut u _ | LEvict u => if decide (u = t) then Some e else None
    | LClose => Some e
    end) log.

(** The loads at the checks of a record. *)
Definition loads (log : list entry) : list Z := omap (fun e => match e with LTick _ _ load => Some load | _ => None end) log.

(** The input that concerns [t], in the record: its spans, the checks, the end. *)
Definition heard (t : Z) (log : list entry) : list entry :=
  List.filter (fun e => match e with LOut _ _ | LEvict _ => false | _ => true end) (about t log).
