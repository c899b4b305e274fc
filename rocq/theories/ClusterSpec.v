(** Vocabulary for the properties of several proxies with Kafka (C66-C69). *)
From Verif Require Import Base SpanModel BinaryModel BinarySpec PipelineModel ConsumeModel ClusterModel ReplaySpec.

(** The spans are Go values that the wire format can carry, and ranging over a map visits every entry once. *)
Definition valid_kevent (e : kevent) : Prop :=
  match e with
  | KPut _ s => wire_ok s
  | KTake _ ord => forall m, iteration_order (ord m) m
  | _ => True
  end.

(** The cluster of [n] proxies after a schedule, and the record of it. *)
Definition reached (cfg : kconfig) (n parts : nat) (evs : list kevent) (st : kstate) (rec : list kentry) : Prop :=
  Forall valid_kevent evs /\ krun cfg evs (kinit n parts) [] = Next (st, rec).

(** The span that a message carries. *)
Definition carries (m : kmsg) (s : span) : Prop := exists rest, binary_decode (km_val m) = DOk s rest.

(** Accepted by HTTP handlers. *)
Definition puts (rec : list kentry) : list span := omap (fun e => match e with RPut _ s => Some s | _ => None end) rec.

(** The messages and spans that did not get into Kafka, with the reason in the record. *)
Definition lost_msgs (rec : list kentry) : list kmsg :=
  concat (map (fun e => match e with RTooLarge _ m | RLost _ m | RFailed _ m => [m] | RCrash _ _ ms => ms | _ => [] end) rec).
Definition lost_spans (rec : list kentry) : list span :=
  concat (map (fun e => match e with RCrash _ ss _ => ss | _ => [] end) rec).

(** On their way to Kafka, and in Kafka. *)
Definition outgoing_spans (st : kstate) : list span := concat (map x_http (z_proxies st)).
Definition outgoing_msgs (st : kstate) : list kmsg :=
  concat (map (fun x => match x_hold x with Some m => [m] | None => [] end ++ x_input x ++ x_buffer x) (z_proxies st)).
Definition stored (st : kstate) : list kmsg := concat (map q_log (z_parts st)).

(** The offsets of partition [p] whose messages were handled, in order. *)
Definition handled (rec : list kentry) (p : nat) : list nat :=
  omap (fun e => match e with RCall p' o _ _ | RSkip p' o => if decide (p' = p) then Some o else None | _ => None end) rec.
(** Where the consumers started to read partition [p], and the offsets they handled since.  As long as nothing has been
    committed every new owner starts again at the end of the log. *)
Definition reading_step (p : nat) (acc : bool * option (nat * list nat)) (e : kentry) : bool * option (nat * list nat) :=
  match e with
  | ROpen p' _ o => if decide (p' = p /\ acc.1 = false) then (false, Some (o, [])) else acc
  | RCommit p' _ => if decide (p' = p) then (true, acc.2) else acc
  | RCall p' o _ _ | RSkip p' o =>
      if decide (p' = p) then (acc.1, match acc.2 with Some (b, l) => Some (b, l ++ [o]) | None => None end) else acc
  | _ => acc
  end.
Definition reading (rec : list kentry) (p : nat) : option (nat * list nat) := (foldl (reading_step p) (false, None) rec).2.

(** The calls for partition [p]: the proxy and the span. *)
Definition calls (rec : list kentry) (p : nat) : list (nat * span) :=
  omap (fun e => match e with RCall p' _ i s => if decide (p' = p) then Some (i, s) else None | _ => None end) rec.
Definition opened (rec : list kentry) (p : nat) : nat :=
  length (omap (fun e => match e with ROpen p' _ _ => if decide (p' = p) then Some tt else None | _ => None end) rec).

(** What the corrector of proxy [i] received since the process was started. *)
Definition received (rec : list kentry) (i : nat) : list span :=
  foldl (fun l e => match e with RRecv j s => if decide (j = i) then l ++ [s] else l | RCrash j _ _ => if decide (j = i) then [] else l | _ => l end) [] rec.
Definition crashed (rec : list kentry) (i : nat) : Prop := exists ss ms, RCrash i ss ms ∈ rec.

Definition of_trace (t : Z) (l : list span) : list span := List.filter (fun s => s_trace s =? t) l.

(** The partition of a trace. *)
Definition home (cfg : kconfig) (t : Z) : nat := g_part cfg (map (fun k => u64 t / 2^k mod 256) [0; 8; 16; 24; 32; 40; 48; 56]).

(** Offset up to which the messages of a partition have been handled by its owner. *)
Definition handled_to (c : kclaim) : nat := match c_phase c with CMarking => S (c_next c) | _ => c_next c end.

(** However ranging over its tags orders them, the message of the span is within the producer's limit. *)
Definition fits (cfg : kconfig) (s : span) : Prop :=
  forall ord m, iteration_order ord (s_tags s) -> encode_msg ord s = Some m -> msg_size m <= g_limit cfg.
(** The steps by which proxy [i] passes its spans on to the producer. *)
Definition sends (i : nat) (e : kevent) : Prop :=
  match e with KTake j _ | KInput j | KDispatch j => j = i | _ => False end.

(** The last offset for which the present owner of partition [p] has called the callback, if any. *)
Definition session (rec : list kentry) (p : nat) : option nat :=
  foldl (fun acc e => match e with
    | ROpen p' _ _ => if decide (p' = p) then None else acc
    | RCall p' o _ _ => if decide (p' = p) then Some o else acc
    | _ => acc end) None rec.
