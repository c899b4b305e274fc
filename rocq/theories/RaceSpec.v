(** Specification of data races (C92, C93), after the Go memory model: what happens before what in a sequence of actions. *)
From Verif Require Import Base.
Local Open Scope nat_scope.

(** What a goroutine does: channel operations, locks, [sync.Pool] (of the object [p]), accesses to memory. *)
Inductive action (C M P L : Type) :=
  | ASend (c : C) | ARecv (c : C) | ALock (m : M) | AUnlock (m : M) | APut (p : P) | AGet (p : P) | ARead (x : L) | AWrite (x : L).
Arguments ASend {C M P L}. Arguments ARecv {C M P L}. Arguments ALock {C M P L}. Arguments AUnlock {C M P L}.
Arguments APut {C M P L}. Arguments AGet {C M P L}. Arguments ARead {C M P L}. Arguments AWrite {C M P L}.

(** Actions in the order in which they happen, each with its goroutine. *)
Notation actions T C M P L := (list (T * action C M P L)).

Section race.
Context {T C M P L : Type} `{EqDecision T, EqDecision C, EqDecision M, EqDecision P, EqDecision L}.

Local Notation actions := (actions T C M P L).

Fixpoint sends (c : C) (tr : actions) : nat :=
  match tr with [] => 0 | (_, ASend c') :: tr' => (if decide (c = c') then 1 else 0) + sends c tr' | _ :: tr' => sends c tr' end.
Fixpoint recvs (c : C) (tr : actions) : nat :=
  match tr with [] => 0 | (_, ARecv c') :: tr' => (if decide (c = c') then 1 else 0) + recvs c tr' | _ :: tr' => recvs c tr' end.

(** Happens before: the order of a goroutine's own actions; sending a value before receiving it; unlocking before the next
    locking; putting an object into a pool before getting it.  (That a receive happens before the send that needs its place
    in the channel is left out: it would only make more accesses ordered.) *)
Inductive before (tr : actions) : nat -> nat -> Prop :=
  | bf_own i j t a b : i < j -> tr !! i = Some (t, a) -> tr !! j = Some (t, b) -> before tr i j
  | bf_chan i j t u c : i < j -> tr !! i = Some (t, ASend c) -> tr !! j = Some (u, ARecv c) -> sends c (take i tr) = recvs c (take j tr) -> before tr i j
  | bf_lock i j t u m : i < j -> tr !! i = Some (t, AUnlock m) -> tr !! j = Some (u, ALock m) -> before tr i j
  | bf_pool i j t u p : i < j -> tr !! i = Some (t, APut p) -> tr !! j = Some (u, AGet p) -> before tr i j
  | bf_trans i j k : before tr i j -> before tr j k -> before tr i k.

Definition writes (tr : actions) (i : nat) (x : L) : Prop := exists t, tr !! i = Some (t, AWrite x).
Definition accesses (tr : actions) (i : nat) (x : L) : Prop := exists t, tr !! i = Some (t, AWrite x) \/ tr !! i = Some (t, ARead x).

(** No data race: of two accesses to the same place, one of them a write, one happens before the other. *)
Definition race_free (tr : actions) : Prop :=
  forall i j x, i < j -> accesses tr i x -> accesses tr j x -> writes tr i x \/ writes tr j x -> before tr i j.
End race.
