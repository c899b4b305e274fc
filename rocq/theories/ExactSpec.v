(** For the sharper forms of C18, C21 and C48. *)
From Verif Require Import Base JsonModel HandlerModel.

(** The same environment with another bound on the steps of the parsers. *)
Definition with_fuel (n : nat) (env : environment) : environment := Env n (n_buf env) (n_pool env) (n_gunzip env) (n_jaeger env).

(** Enough steps for a body of this length in this number of reads. *)
Definition enough_steps (chunks : list bytes) (n : nat) : Prop :=
  (length chunks + length (concat chunks) < n)%nat /\ (2 * length (concat chunks) + 2 < n)%nat.
