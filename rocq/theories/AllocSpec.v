(** Specification for C91: sums of sizes. *)
From Verif Require Import Base.

Fixpoint total (l : list Z) : Z := match l with [] => 0 | z :: l' => z + total l' end.
