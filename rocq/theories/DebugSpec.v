(** Vocabulary for C63. *)
From Verif Require Import Base SpanModel TreeModel TreeSpec DebugModel.

(** The children of [p], in the order of the trace. *)
Definition kids (spans : list span) (p : span) : list span := filter (fun c => s_parent c = s_id p /\ s_parent c <> s_id c) spans.

(** [l] leads from [p] downwards, each step to one of the first 32 children. *)
Fixpoint walks (spans : list span) (p : span) (l : list span) : Prop :=
  match l with [] => True | c :: l' => c ∈ take 32 (kids spans p) /\ walks spans c l' end.

(** The spans printed, in that order. *)
Definition nodes (lines : list line) : list span := omap (fun x => match x with LNode _ s => Some s | _ => None end) lines.

(** The root candidates, in the order of the trace. *)
Definition tops (spans : list span) : list span := filter (fun s => s_parent s = s_id s \/ s_parent s ∉ ids spans) spans.

(** The lines at the beginning of [lines] that belong to the span whose line, indented by [n], comes before them. *)
Fixpoint inside (n : nat) (lines : list line) : list line :=
  match lines with
  | LNode k s :: l => if (n <? k)%nat then LNode k s :: inside n l else []
  | LDeep k :: l => if (n <=? k)%nat then LDeep k :: inside n l else []
  | LMany k c :: l => if (n <=? k)%nat then LMany k c :: inside n l else []
  | _ => []
  end.

(** Of these, the ones that are not below another span again. *)
Definition direct (n : nat) (lines : list line) : list line :=
  List.filter (fun x => match x with LNode k _ => (k =? S n)%nat | LDeep k | LMany k _ => (k =? n)%nat | _ => false end) lines.

(** The lines that are not below a span. *)
Definition outer (lines : list line) : list line :=
  List.filter (fun x => match x with LNode k _ => (k =? 0)%nat | LHead _ _ | LBlank => true | _ => false end) lines.
