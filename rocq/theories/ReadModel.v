(** The two methods of the parser that read a whole array or object with the help of a consumer. *)
From Verif Require Import Base JsonModel.

(** A consumer is a closure over the parser and memory of its own, the latter of type [S]: it is given the memory and the
    state of the parser and ends with new ones, or fails. *)
Section read.
  Context {S : Type} (fuel : nat).

  (** codec/hyperjson/parser_array.go:10-25: the loop of [ReadArray]; [n] is the fuel of the loop. *)
  Fixpoint read_array_loop (n : nat) (consumer : S -> pstate -> pres S) (s : S) (st : pstate) : pres S :=
    match n with
    | O => PHang
    | Datatypes.S n =>
        pbind (next_type fuel st) (fun next st =>
        if decide (next = TArrEnd) then pbind (consume1 TArrEnd st) (fun _ st => POk s st)
        else pbind (consumer s st) (fun s st => read_array_loop n consumer s st))
    end.
  (** parser_array.go:5-26 [ReadArray]. *)
  Definition ReadArray (consumer : S -> pstate -> pres S) (s : S) (st : pstate) : pres S :=
    pbind (consume fuel TArrBegin st) (fun _ st => read_array_loop fuel consumer s st).

  (** parser_object.go:11-32: the loop of [ReadObject].  The key is a slice of the buffer; the comment of the code (line 3)
      asks consumers to use it before they call the parser, so it is a value here. *)
  Fixpoint read_object_loop (n : nat) (consumer : bytes -> S -> pstate -> pres S) (s : S) (st : pstate) : pres S :=
    match n with
    | O => PHang
    | Datatypes.S n =>
        pbind (next_type fuel st) (fun next st =>
        if negb (bool_decide (next = TString)) then pbind (consume1 TObjEnd st) (fun _ st => POk s st)
        else pbind (read_string fuel st) (fun key st =>
             pbind (consumer (t_val key) s st) (fun s st => read_object_loop n consumer s st)))
    end.
  (** parser_object.go:6-33 [ReadObject]. *)
  Definition ReadObject (consumer : bytes -> S -> pstate -> pres S) (s : S) (st : pstate) : pres S :=
    pbind (consume fuel TObjBegin st) (fun _ st => read_object_loop fuel consumer s st).
End read.
