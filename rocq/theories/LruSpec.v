(** Ideal recency list and vocabulary for the cache properties. *)
From Verif Require Import Base LruModel.

(** Operations on a cache and the ideal cache: a list of strings, most recently used first. *)
Inductive lop := OGet (s : gostring) | OSet (g : gstr).

(** Accounted size of a list of strings: bytes plus 56 per entry. *)
Fixpoint accounted (l : list gostring) : Z :=
  match l with [] => 0 | s :: l' => Z.of_nat (length s) + 56 + accounted l' end.

(** [p] is what remains of [l] after evicting from the back until the size is below the limit. *)
Definition evicted (limit : Z) (l p : list gostring) : Prop :=
  p `prefix_of` l /\ accounted p < limit /\ forall q, q `prefix_of` l -> accounted q < limit -> q `prefix_of` p.

(** [s] moved to the front of [l]. *)
Definition to_front (s : gostring) (l l' : list gostring) : Prop :=
  exists l1 l2, l = l1 ++ s :: l2 /\ s ∉ l1 /\ l' = s :: l1 ++ l2.

Inductive ideal_step (limit : Z) (l : list gostring) : lop -> list gostring -> option gostring -> Prop :=
  | ideal_hit s l' : to_front s l l' -> ideal_step limit l (OGet s) l' (Some s)
  | ideal_miss s : s ∉ l -> ideal_step limit l (OGet s) l None
  | ideal_again g l' : to_front (g_val g) l l' -> ideal_step limit l (OSet g) l' None
  | ideal_insert g p : g_val g ∉ l -> evicted limit l p -> ideal_step limit l (OSet g) (g_val g :: p) None.

Inductive ideal_run (limit : Z) : list gostring -> list lop -> list gostring -> list (option gostring) -> Prop :=
  | ideal_done l : ideal_run limit l [] l []
  | ideal_next l o l1 out ops l2 outs :
      ideal_step limit l o l1 out -> ideal_run limit l1 ops l2 outs -> ideal_run limit l (o :: ops) l2 (out :: outs).

(** Running the modelled cache; the output of a [Set] is recorded as [None]. *)
Definition lop_run (fuel : nat) (c : lru) (o : lop) : lres (lru * option gostring) :=
  match o with
  | OGet s => let! r := lru_get c s in LOk (r.1, option_map g_val r.2)
  | OSet g => let! c' := lru_set fuel c g in LOk (c', None)
  end.
Fixpoint lops_run (fuel : nat) (c : lru) (ops : list lop) : lres (lru * list (option gostring)) :=
  match ops with
  | [] => LOk (c, [])
  | o :: ops' =>
      let! r := lop_run fuel c o in
      let! r' := lops_run fuel r.1 ops' in
      LOk (r'.1, r.2 :: r'.2)
  end.
