(** Vocabulary for C97: whose memory is it. *)
From Verif Require Import Base SpanModel TreeModel FinishModel SliceModel.

(** The events of the corrector. *)
Definition own_events (evs : list hevent) : list event := omap (fun e => match e with HEvent _ _ e => Some e | HOther _ => None end) evs.
(** During this event nobody but the corrector writes. *)
Definition undisturbed (e : hevent) : Prop := match e with HEvent _ others _ => forall id, others id = [] | HOther _ => False end.
