(** Vocabulary for C74. *)
From Verif Require Import Base SpanModel TreeModel FinishModel FinishSpec TagHeapModel.

(** The same events for the model in which tags are values. *)
Definition plain (e : hevent) : event :=
  match e with HESpan _ ord n0 n1 s => ESpan ord n0 n1 s | HETick k => ETick k | HEClose => EClose end.

(** What somebody who holds on to the spans of the record sees in it when the heap is [hp]. *)
Definition look (hp : heap) (e : hentry) : option entry :=
  match e with HWrite _ => None | HSent t spans => Some (LOut t (Emitted (map (deref hp) spans))) | HOther e => Some e end.

(** The maps of spans, and of all spans sent. *)
Definition refs (spans : list hspan) : list nat := omap h_tags spans.
Definition sent_refs (log : list hentry) : list nat := concat (map (fun e => match e with HSent _ spans => refs spans | _ => [] end) log).
