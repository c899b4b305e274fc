(** What forwarding should do, for C46, C53, C54. *)
From Verif Require Import Base SpanModel ForwardModel.

(** [converts conv s l s' l']: converting the spans [l] one after the other, starting with converter state [s], leaves
    [l'], the results in order without failures and without spans that have a zero id or trace. *)
Inductive converts {S} (conv : converter S) : S -> list span -> S -> list span -> Prop :=
  | converts_nil s : converts conv s [] s []
  | converts_keep s x l s1 c s2 l' : conv s x = (s1, (c, false)) -> s_id c <> 0 -> s_trace c <> 0 ->
      converts conv s1 l s2 l' -> converts conv s (x :: l) s2 (c :: l')
  | converts_drop s x l s1 c err s2 l' : conv s x = (s1, (c, err)) -> err = true \/ s_id c = 0 \/ s_trace c = 0 ->
      converts conv s1 l s2 l' -> converts conv s (x :: l) s2 l'.

(** The same for a sequence of traces; the converter keeps its state. *)
Inductive converts_all {S} (conv : converter S) : S -> list (list span) -> S -> list (list span) -> Prop :=
  | all_nil s : converts_all conv s [] s []
  | all_cons s t ts s1 t' s2 ts' : converts conv s t s1 t' -> converts_all conv s1 ts s2 ts' ->
      converts_all conv s (t :: ts) s2 (t' :: ts').

(** A slice within its array. *)
Definition slice_ok (h : list (list span)) (sl : slice) : Prop := exists l, h !! sl_arr sl = Some l /\ (sl_len sl <= length l)%nat.
