(** Which bodies are documents, for C76. *)
From Verif Require Import Base JsonSpec DocSpec.

(** The body begins with a loosely written text of [v] whose strings and numbers are shorter than [m] bytes; [rest] follows. *)
Definition document (m : nat) (body : bytes) (v : json) (rest : bytes) : Prop :=
  exists w l, body = w ++ l ++ rest /\ ws w /\ loose m v l /\ delimited v rest.

(** No span object has two members "annotations" or two members "binaryAnnotations". *)
Definition unrepeated (v : json) : Prop :=
  forall vs, v = JArr vs -> Forall (fun v => at_most_once (str "annotations") v /\ at_most_once (str "binaryAnnotations") v) vs.
