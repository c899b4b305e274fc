(** Vocabulary for the use of pools (C93). *)
From Verif Require Import Base RaceSpec RaceModel.
Local Open Scope nat_scope.

(** A goroutine reads, writes or puts back the object [p]. *)
Definition touches (a : act) (p : place) : Prop := a = ARead p \/ a = AWrite p \/ a = APut p.

(** After an object was put back, only those touch it who got it since. *)
Definition pools_respected (l : log) : Prop :=
  forall i j t u p a, i < j -> l !! i = Some (t, APut p) -> l !! j = Some (u, a) -> touches a p -> exists k, i < k /\ k < j /\ l !! k = Some (u, AGet p).
