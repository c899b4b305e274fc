(** Vocabulary for C102. *)
From Verif Require Import Base SpanModel TreeModel TreeSpec WorkModel.

(** How often [n] can be halved until nothing is left. *)
Definition halvings (n : nat) : nat := match n with O => 0%nat | _ => S (Nat.log2 n) end.

(** How many are smaller. *)
Definition smaller (id : Z) (l : list Z) : nat := length (List.filter (fun x => x <? id) l).

(** The values in the order in which they come up first. *)
Definition firsts (l : list Z) : list Z := foldl (fun acc x => if decide (x ∈ acc) then acc else acc ++ [x]) [] l.

(** Pairs of which the later is the greater. *)
Fixpoint ascents (l : list Z) : nat :=
  match l with [] => 0%nat | x :: l' => (length (List.filter (fun y => (x <? y)%Z) l') + ascents l')%nat end.

(** The spans moved while spans are received. *)
Fixpoint moves (ord : gmap gostring gostring -> list (gostring * gostring)) (adds : list (Z * span)) (t : tree) : nat :=
  match adds with
  | [] => 0%nat
  | a :: adds' => ((add_counting (s_id a.2) (t_spans t)).2 + moves ord adds' (add_span ord a.1 a.2 t))%nat
  end.

(** The spans that can be reached from [root], by their indices. *)
Definition reached (spans : list span) (root : span) (l : list nat) : Prop :=
  NoDup l /\ forall i, i ∈ l <-> exists s, spans !! i = Some s /\ connected spans root s.
