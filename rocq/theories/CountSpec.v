(** What the metrics about requests and messages should say, for C80 and C81. *)
From Verif Require Import Base SpanModel BinaryModel HandlerModel HandlerSpec EncoderModel CountModel.

(** Without the metrics. *)
Definition visible (l : list effect) : list action := concat (map (fun e => match e with Do a => [a] | _ => [] end) l).

(** How many spans were put on the channel, and what the meter spans.parsed says. *)
Definition put (e : effect) : Z := match e with Do (Put _) => 1 | _ => 0 end.
Definition marked (e : effect) : Z := match e with Parsed n => n | _ => 0 end.
Definition total (f : effect -> Z) (l : list effect) : Z := foldr (fun e n => f e + n) 0 l.

(** What all requests, and what request [i] did. *)
Definition all (t : list (nat * effect)) : list effect := map snd t.
Definition by_request (i : nat) (t : list (nat * effect)) : list effect :=
  map snd (List.filter (fun p => (p.1 =? i)%nat) t).

(** The body of the request is given to a parser. *)
Definition parsed_at_all (env : environment) (q : request) : Prop :=
  (exists body, reads env q body) /\ (q_endpoint q = EV1 -> declared_json (q_type q)).

(** [sizes]: the lengths of the messages number 128, 256, 384, ... *)
Definition every_128th (l : list send) (msgs : list message) (sizes : list Z) : Prop :=
  length sizes = (length msgs / Pos.to_nat 128)%nat /\
  forall j s bs, l !! (Pos.to_nat 128 * j + Pos.to_nat 127)%nat = Some s -> binary_encode (sn_order s) (sn_span s) = Some bs ->
    sizes !! j = Some (Z.of_nat (length bs)).
