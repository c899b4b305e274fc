(** Model of several proxies that share a Kafka topic: main.go:108-152 with [ErrorCorrectSpans] behind it,
    balance/sender.go:17-34 and balance/receiver.go:47-95.

    Sarama (v1.26.1) and Kafka are not part of the repository; they are represented by their documented behaviour:
    - the producer passes its input channel on in order, returns messages above the size limit through its channel of
      errors, writes the others to the partition that belongs to their key, or loses them unnoticed
      ([RequiredAcks = NoResponse], main.go:67), or returns them as errors;
    - [Producer.Return.Errors] is on (the default), and neither main.go nor balance/sender.go reads [Errors()];
    - a partition has at most one owner; a new owner goes on at the committed offset, or at the end of the log if
      there is none ([Consumer.Offsets.Initial] is [OffsetNewest] by default);
    - messages are not deleted (main.go:123: they are kept for 10 minutes). *)
From Verif Require Import Base SpanModel BinaryModel EncoderModel PipelineModel ConsumeModel.

(** balance/encoder.go:72-76: key and value of a message.  That they still read like this when Kafka reads them through
    the message's pointers is C08. *)
Record kmsg := KMsg { km_key : bytes; km_val : bytes }.

(** Capacities of [httpInputSpans] (main.go:109), of the producer's input and of its errors (main.go:70), and of
    [kafkaInputSpans] (main.go:138); the size limit (main.go:69); the partitioner. *)
Record kconfig := KConfig { g_http : nat; g_input : nat; g_errors : nat; g_kafka : nat; g_limit : Z; g_part : bytes -> nat }.

(** Sarama counts up to 36 bytes of overhead for a message. *)
Definition main_kconfig (part : bytes -> nat) : kconfig := KConfig 256 64 64 256 (768 * 1024 - 36) part.

(** One process. *)
Record proxy := Proxy {
  x_http : list span;      (* [httpInputSpans] *)
  x_hold : option kmsg;    (* the message at [s.producer.Input() <-] (sender.go:33) *)
  x_input : list kmsg;     (* the producer's input channel *)
  x_buffer : list kmsg;    (* accepted by the producer, not written yet *)
  x_errors : nat;          (* entries of the producer's errors channel *)
  x_kafka : list span }.   (* [kafkaInputSpans] *)
Definition new_proxy : proxy := Proxy [] None [] [] 0 [].

(** A partition in the hands of a consumer: owner, next offset to read, offset marked in this session (if any), state
    of its [ConsumeClaim]. *)
Record kclaim := KClaim { c_owner : nat; c_next : nat; c_mark : option nat; c_phase : claim }.
Record partition := Partition { q_log : list kmsg; q_committed : option nat; q_claim : option kclaim }.
Definition new_partition : partition := Partition [] None None.

Record kstate := KState { z_proxies : list proxy; z_parts : list partition }.
Definition kinit (n parts : nat) : kstate := KState (replicate n new_proxy) (replicate parts new_partition).

(** A record of what happened. *)
Inductive kentry :=
  | RPut (i : nat) (s : span)           (* an HTTP handler of proxy [i] accepted the span *)
  | RTooLarge (i : nat) (m : kmsg)      (* refused by the producer *)
  | RLost (i : nat) (m : kmsg) | RFailed (i : nat) (m : kmsg)
  | ROpen (p i o : nat)                 (* proxy [i] starts to read partition [p] at offset [o] *)
  | RSkip (p o : nat)                   (* a message that does not decode (balance/receiver.go:84-87) *)
  | RCall (p o i : nat) (s : span)      (* callback with the span of the message at [o] *)
  | RCommit (p c : nat)                 (* offset [c] is committed *)
  | RRecv (i : nat) (s : span)          (* received by the corrector of proxy [i] *)
  | RCrash (i : nat) (spans : list span) (msgs : list kmsg).  (* lost with the process: on their way to Kafka *)

Inductive kevent :=
  | KPut (i : nat) (s : span)                            (* handlers.go:92 *)
  | KTake (i : nat) (ord : gmap gostring gostring -> list (gostring * gostring))  (* sender.go:27, 33; [ord]: iteration order of maps *)
  | KInput (i : nat)                                     (* sender.go:33: the send *)
  | KDispatch (i : nat)
  | KWrite (i j : nat) | KLose (i j : nat) | KFail (i j : nat)
  | KOpen (p i : nat)
  | KNext (p : nat)                                      (* receiver.go:80-87 *)
  | KCall (p : nat)                                      (* receiver.go:89, main.go:145 *)
  | KMark (p : nat)                                      (* receiver.go:91 *)
  | KCommit (p : nat)
  | KClose (p : nat) (committed : bool)                  (* the session ends, with or without a last commit *)
  | KRecv (i : nat)                                      (* correct.go:169 *)
  | KCrash (i : nat).                                    (* the process ends at any point and is started again *)

(** balance/encoder.go:53-58. *)
Definition encode_msg (ord : list (gostring * gostring)) (s : span) : option kmsg :=
  match binary_encode ord s with
  | Some bs => Some (KMsg (le_bytes (u64 (s_trace s))) bs)
  | None => None
  end.
Definition msg_size (m : kmsg) : Z := Z.of_nat (length (km_key m) + length (km_val m)).

Definition drop_claim (i : nat) (q : partition) : partition :=
  match q_claim q with
  | Some c => if decide (c_owner c = i) then Partition (q_log q) (q_committed q) None else q
  | None => q
  end.

Definition kstep (cfg : kconfig) (e : kevent) (st : kstate) : result (kstate * list kentry) :=
  let '(KState xs qs) := st in
  match e with
  | KPut i s =>
      match xs !! i with
      | Some (Proxy h m inp b er k) =>
          if decide (length h < g_http cfg)%nat then Next (KState (<[i := Proxy (h ++ [s]) m inp b er k]> xs) qs, [RPut i s]) else Blocked
      | None => Blocked end
  | KTake i ord =>
      match xs !! i with
      | Some (Proxy (s :: h) None inp b er k) =>
          match encode_msg (ord (s_tags s)) s with
          | Some m => Next (KState (<[i := Proxy h (Some m) inp b er k]> xs) qs, [])
          | None => Panicked end
      | _ => Blocked end
  | KInput i =>
      match xs !! i with
      | Some (Proxy h (Some m) inp b er k) =>
          if decide (length inp < g_input cfg)%nat then Next (KState (<[i := Proxy h None (inp ++ [m]) b er k]> xs) qs, []) else Blocked
      | _ => Blocked end
  | KDispatch i =>
      match xs !! i with
      | Some (Proxy h hold (m :: inp) b er k) =>
          if g_limit cfg <? msg_size m then
            if decide (er < g_errors cfg)%nat then Next (KState (<[i := Proxy h hold inp b (S er) k]> xs) qs, [RTooLarge i m]) else Blocked
          else Next (KState (<[i := Proxy h hold inp (b ++ [m]) er k]> xs) qs, [])
      | _ => Blocked end
  | KWrite i j =>
      match xs !! i with
      | Some (Proxy h hold inp b er k) =>
          match b !! j with
          | Some m =>
              let p := g_part cfg (km_key m) in
              match qs !! p with
              | Some (Partition log c cl) =>
                  Next (KState (<[i := Proxy h hold inp (remove j b) er k]> xs) (<[p := Partition (log ++ [m]) c cl]> qs), [])
              | None => Blocked end
          | None => Blocked end
      | None => Blocked end
  | KLose i j =>
      match xs !! i with
      | Some (Proxy h hold inp b er k) =>
          match b !! j with
          | Some m => Next (KState (<[i := Proxy h hold inp (remove j b) er k]> xs) qs, [RLost i m])
          | None => Blocked end
      | None => Blocked end
  | KFail i j =>
      match xs !! i with
      | Some (Proxy h hold inp b er k) =>
          match b !! j with
          | Some m =>
              if decide (er < g_errors cfg)%nat then Next (KState (<[i := Proxy h hold inp (remove j b) (S er) k]> xs) qs, [RFailed i m]) else Blocked
          | None => Blocked end
      | None => Blocked end
  | KOpen p i =>
      match qs !! p, xs !! i with
      | Some (Partition log c None), Some _ =>
          let o := default (length log) c in
          Next (KState xs (<[p := Partition log c (Some (KClaim i o None CWaiting))]> qs), [ROpen p i o])
      | _, _ => Blocked end
  | KNext p =>
      match qs !! p with
      | Some (Partition log c (Some (KClaim i n mk CWaiting))) =>
          match log !! n with
          | Some m =>
              match binary_decode (km_val m) with
              | DErr _ => Next (KState xs (<[p := Partition log c (Some (KClaim i (S n) mk CWaiting))]> qs), [RSkip p n])
              | DOk s _ => Next (KState xs (<[p := Partition log c (Some (KClaim i n mk (CCalling s)))]> qs), [])
              end
          | None => Blocked end
      | _ => Blocked end
  | KCall p =>
      match qs !! p with
      | Some (Partition log c (Some (KClaim i n mk (CCalling s)))) =>
          match xs !! i with
          | Some (Proxy h hold inp b er k) =>
              if decide (length k < g_kafka cfg)%nat then
                Next (KState (<[i := Proxy h hold inp b er (k ++ [s])]> xs) (<[p := Partition log c (Some (KClaim i n mk CMarking))]> qs), [RCall p n i s])
              else Blocked
          | None => Blocked end
      | _ => Blocked end
  | KMark p =>
      match qs !! p with
      | Some (Partition log c (Some (KClaim i n mk CMarking))) =>
          Next (KState xs (<[p := Partition log c (Some (KClaim i (S n) (Some (Nat.max (S n) (default O mk))) CWaiting))]> qs), [])
      | _ => Blocked end
  | KCommit p =>
      match qs !! p with
      | Some (Partition log c (Some (KClaim i n (Some mk) ph))) =>
          Next (KState xs (<[p := Partition log (Some mk) (Some (KClaim i n (Some mk) ph))]> qs), [RCommit p mk])
      | _ => Blocked end
  | KClose p committed =>
      match qs !! p with
      | Some (Partition log c (Some (KClaim i n mk CWaiting))) =>
          match (if committed then mk else None) with
          | Some m => Next (KState xs (<[p := Partition log (Some m) None]> qs), [RCommit p m])
          | None => Next (KState xs (<[p := Partition log c None]> qs), [])
          end
      | _ => Blocked end
  | KRecv i =>
      match xs !! i with
      | Some (Proxy h hold inp b er (s :: k)) => Next (KState (<[i := Proxy h hold inp b er k]> xs) qs, [RRecv i s])
      | _ => Blocked end
  | KCrash i =>
      match xs !! i with
      | Some (Proxy h hold inp b er k) =>
          Next (KState (<[i := new_proxy]> xs) (map (drop_claim i) qs),
                [RCrash i h (match hold with Some m => [m] | None => [] end ++ inp ++ b)])
      | None => Blocked end
  end.

(** A schedule: steps that are not possible are skipped. *)
Fixpoint krun (cfg : kconfig) (evs : list kevent) (st : kstate) (rec : list kentry) : result (kstate * list kentry) :=
  match evs with
  | [] => Next (st, rec)
  | e :: evs' =>
      match kstep cfg e st with
      | Next (st', l) => krun cfg evs' st' (rec ++ l)
      | Blocked => krun cfg evs' st rec
      | Panicked => Panicked
      end
  end.
