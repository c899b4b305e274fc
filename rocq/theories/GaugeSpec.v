(** Vocabulary for C78: counting in the record of a run. *)
From Verif Require Import Base GaugeModel.

Definition sum_of (f : gentry -> Z) (log : list gentry) : Z := foldr (fun e n => f e + n) 0 log.

(** Lookups that found their string, that did not; lookups counted as such; readings begun and ended; the numbers
    reported. *)
Definition found : list gentry -> Z := sum_of (fun e => match e with EFound => 1 | _ => 0 end).
Definition missed : list gentry -> Z := sum_of (fun e => match e with EMissed => 1 | _ => 0 end).
Definition counted (b : bool) : list gentry -> Z := sum_of (fun e => match e with ECounted c => if Bool.eqb b c then 1 else 0 | _ => 0 end).
Definition begun : list gentry -> Z := sum_of (fun e => match e with ESwapped _ => 1 | _ => 0 end).
Definition ended : list gentry -> Z := sum_of (fun e => match e with ERate _ _ => 1 | _ => 0 end).
Definition reported_hits : list gentry -> Z := sum_of (fun e => match e with ERate h _ => h | _ => 0 end).
Definition reported_misses : list gentry -> Z := sum_of (fun e => match e with ERate _ m => m | _ => 0 end).

(** Every lookup has been counted and no reading is under way. *)
Definition quiet (log : list gentry) : Prop :=
  found log + missed log = counted true log + counted false log /\ begun log = ended log.

(** No reading begins or ends; and nothing is counted either. *)
Definition no_reading (log : list gentry) : Prop := Forall (fun e => match e with ESwapped _ | ERate _ _ => False | _ => True end) log.
Definition calm (log : list gentry) : Prop := Forall (fun e => match e with ECounted _ | ESwapped _ | ERate _ _ => False | _ => True end) log.
