(** Model of balance/receiver.go:17-45: the loop around the consumer group and the function that ends it. *)
From Verif Require Import Base SpanModel BinaryModel PipelineModel.

(** A claim goroutine of the session ([ConsumeClaim], receiver.go:75-95): waiting for a message; in the callback;
    about to mark the message. *)
Inductive claim := CWaiting | CCalling (s : span) | CMarking.

(** The goroutine of receiver.go:26-39: at the [select]; inside [consumerGroup.Consume] with the claim goroutines
    that sarama has started for this session; returned. *)
Inductive loop := LSelect | LConsume (claims : list claim) | LDone.

(** [v_waiting]: calls of the returned function that have called [cancel] and are at [<-finishedCh] (receiver.go:42-43).
    [v_returned]: calls that have returned. *)
Record vstate := VState { v_loop : loop; v_cancelled : bool; v_finished : bool; v_waiting : nat; v_returned : nat }.
Definition vinit : vstate := VState LSelect false false 0 0.

(** Atomic steps.  The contract of sarama's [Consume]: claim goroutines run only while it runs, and it returns only
    when all of them have returned (with or without error: the caller only logs it). *)
Inductive vevent :=
  | VSelect                          (* the [select] *)
  | VClaim                           (* sarama starts a claim goroutine *)
  | VMessage (j : nat) (v : bytes)   (* claim [j] receives a message *)
  | VCallback (j : nat)              (* its callback returns *)
  | VMark (j : nat)
  | VClaimEnd (j : nat)              (* [Messages()] is closed: [ConsumeClaim] returns *)
  | VReturn                          (* [Consume] returns *)
  | VClose                           (* the returned function is called *)
  | VWake.                           (* a call of it returns *)

Definition remove {A} (j : nat) (l : list A) : list A := take j l ++ drop (S j) l.

Definition vstep (e : vevent) (st : vstate) : result vstate :=
  let '(VState lp c f w r) := st in
  match e with
  | VSelect =>
      match lp with
      | LSelect =>
          (* a ready case is taken before [default] *)
          if c then (if f then Panicked (* close of a closed channel *) else Next (VState LDone c true w r))
          else Next (VState (LConsume []) c f w r)
      | _ => Blocked end
  | VClaim => match lp with LConsume l => Next (VState (LConsume (l ++ [CWaiting])) c f w r) | _ => Blocked end
  | VMessage j v =>
      match lp with
      | LConsume l =>
          match l !! j with
          | Some CWaiting =>
              match binary_decode v with
              | DErr _ => Next st
              | DOk s _ => Next (VState (LConsume (<[j := CCalling s]> l)) c f w r)
              end
          | _ => Blocked end
      | _ => Blocked end
  | VCallback j =>
      match lp with
      | LConsume l => match l !! j with Some (CCalling _) => Next (VState (LConsume (<[j := CMarking]> l)) c f w r) | _ => Blocked end
      | _ => Blocked end
  | VMark j =>
      match lp with
      | LConsume l => match l !! j with Some CMarking => Next (VState (LConsume (<[j := CWaiting]> l)) c f w r) | _ => Blocked end
      | _ => Blocked end
  | VClaimEnd j =>
      match lp with
      | LConsume l => match l !! j with Some CWaiting => Next (VState (LConsume (remove j l)) c f w r) | _ => Blocked end
      | _ => Blocked end
  | VReturn => match lp with LConsume [] => Next (VState LSelect c f w r) | _ => Blocked end
  | VClose => Next (VState lp true f (S w) r)
  | VWake => match w with S w' => if f then Next (VState lp c f w' (S r)) else Blocked | O => Blocked end
  end.

(** A schedule: steps that are not possible are skipped. *)
Fixpoint vrun (evs : list vevent) (st : vstate) : result vstate :=
  match evs with
  | [] => Next st
  | e :: evs' => match vstep e st with Next st' => vrun evs' st' | Blocked => vrun evs' st | Panicked => Panicked end
  end.
