(** What it means that a function reads values, for C79. *)
From Verif Require Import Base JsonModel JsonSpec ParseSpec LooseSpec ReadModel.

(** A parser with a buffer of [cap] bytes has [body] before it. *)
Definition before (cap : nat) (st : pstate) (body : bytes) : Prop :=
  (p_tail st <= p_head st)%nat /\ (p_head st <= cap)%nat /\ length (p_buf st) = cap /\ body = unread st /\
  (p_eof st = true -> r_chunks (p_src st) = []) /\ no_eager_error (r_end (p_src st)).

(** How often the reader can still be asked before it reports its end. *)
Definition reads_left (st : pstate) : nat := (length (r_chunks (p_src st)) + length (concat (r_chunks (p_src st))))%nat.

Section reading.
  Context {S : Type} (fuel cap : nat).

  (** [read] reads the values in [P], each in its whole length and nothing after it, and [f] is what it makes of them. *)
  Definition reads (read : S -> pstate -> pres S) (P : json -> Prop) (f : S -> json -> S) : Prop :=
    forall s st w v l rest, before cap st (w ++ l ++ rest) -> ws w -> loose cap v l -> delimited v rest -> P v ->
    (reads_left st < fuel)%nat -> (2 * length l + 2 < fuel)%nat ->
    exists st', read s st = POk (f s v) st' /\ before cap st' rest /\ (reads_left st' <= reads_left st)%nat.

  (** Whenever [read] succeeds, it has read a value in [P]. *)
  Definition reads_only (read : S -> pstate -> pres S) (P : json -> Prop) (f : S -> json -> S) : Prop :=
    forall s st body s' st', before cap st body -> read s st = POk s' st' ->
    exists v rest, document cap body v rest /\ P v /\ s' = f s v /\ before cap st' rest.
End reading.

(** Arrays and objects of such values, and their values in the order of the text. *)
Definition array_of (P : json -> Prop) (v : json) : Prop := exists vs, v = JArr vs /\ Forall P vs.
Definition object_of (P : bytes -> json -> Prop) (v : json) : Prop := exists ms, v = JObj ms /\ Forall (fun m => P m.1 m.2) ms.
Definition over_array {S} (f : S -> json -> S) (s : S) (v : json) : S := match v with JArr vs => foldl f s vs | _ => s end.
Definition over_object {S} (f : bytes -> S -> json -> S) (s : S) (v : json) : S :=
  match v with JObj ms => foldl (fun s m => f m.1 s m.2) s ms | _ => s end.

(** Consumers that call one method of the parser: one that skips the value and counts it, one that collects strings. *)
Definition counting (fuel : nat) (s : nat) (st : pstate) : pres nat := pbind (Skip fuel st) (fun _ st => POk (S s) st).
Definition strings (fuel : nat) (s : list bytes) (st : pstate) : pres (list bytes) :=
  pbind (ReadString fuel st) (fun t st => POk (s ++ [t_val t]) st).
(** One that notes the key and skips the value. *)
Definition keys (fuel : nat) (key : bytes) (s : list bytes) (st : pstate) : pres (list bytes) :=
  pbind (Skip fuel st) (fun _ st => POk (s ++ [key]) st).
(** One that reads nothing. *)
Definition idle {S} (s : S) (st : pstate) : pres S := POk s st.

Definition a_string (v : json) : Prop := exists t, v = JStr t.
Definition string_of (v : json) : bytes := match v with JStr t => t | _ => [] end.
(** One for objects of arrays of strings: the keys, each with its strings after it. *)
Definition flatten (fuel : nat) (key : bytes) (s : list bytes) (st : pstate) : pres (list bytes) := ReadArray fuel (strings fuel) (s ++ [key]) st.
