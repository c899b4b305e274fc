(** How deeply a text is nested, for C98. *)
From Verif Require Import Base JsonSpec.

(** The number of opening brackets and braces, wherever they stand. *)
Definition opening (b : Z) : bool := (b =? 91) || (b =? 123).
Definition opens (l : bytes) : nat := length (List.filter opening l).

(** The number of values around the innermost one, itself included. *)
Fixpoint height (v : json) : nat :=
  match v with
  | JArr vs => S (foldr Nat.max 0%nat (map height vs))
  | JObj ms => S (foldr Nat.max 0%nat (map (fun m => height m.2) ms))
  | _ => 1
  end.

(** The beginning of a list of spans, the first of which has a member that nobody knows, with [n] brackets for its value. *)
Definition brackets (n : nat) : bytes := str "[{""x"":" ++ replicate n 91.
