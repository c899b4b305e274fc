(** Model of the metrics about requests (handlers.go) and about the size of messages (balance/encoder.go). *)
From Verif Require Import Base SpanModel JsonModel CodecModel HandlerModel EncoderModel.

(** What a request does: the visible actions of [HandlerModel], [Mark(n)] of the meter spans.parsed (handlers.go:95-96), one
    measurement of the timer spans.receive of the endpoint (handlers.go:20, 41, 54). *)
Inductive effect := Do (a : action) | Parsed (n : Z) | Timed (ep : endpoint).

(** handlers.go:85-99 [parseSpansWithJSON]: effects and whether [err == nil]. *)
Definition parse_counted (env : environment) (ep : endpoint) (body : rsrc) : xres (list effect * bool) :=
  xmap (fun r => match r with
    | None => ([], false)
    | Some spans => (map (fun s => Do (Put s)) spans ++ [Parsed (Z.of_nat (length spans))], true) end) (parser env ep body).

(** go-metrics' [Timer.Time(f)]: calls [f], then records how long it took (the duration is left out). *)
Definition timed (ep : endpoint) (r : list effect * bool) : list effect * bool := (r.1 ++ [Timed ep], r.2).

(** handlers.go:32-36, 45-49, 58-62. *)
Definition answer_counted (r : list effect * bool) : list effect := r.1 ++ [Do (Status (if r.2 then 202 else 400))].

(** handlers.go:16-64. *)
Definition handle_spans_counted (env : environment) (q : request) (body : rsrc) : xres (list effect) :=
  match q_endpoint q with
  | EV1 =>
      if contains (q_type q) (str "application/json")
      then xmap (fun r => answer_counted (timed EV1 r)) (parse_counted env EV1 body) else XDone (answer_counted ([], false))
  | ep => xmap (fun r => answer_counted (timed ep r)) (parse_counted env ep body)
  end.

(** handlers.go:66-83. *)
Definition handle_counted (env : environment) (q : request) : xres (list effect) :=
  if decide (q_encoding q = str "gzip") then
    match n_gunzip env (q_body q) with
    | None => XDone [Do (Status 400)]
    | Some body => handle_spans_counted env q body
    end
  else handle_spans_counted env q (q_body q).

(** Requests are handled by goroutines of their own: request [i] does its next effect whenever it is its turn (and it can; a
    request that waits for the channel has no turn).  [todo]: what the requests have still to do. *)
Fixpoint interleave (todo : list (list effect)) (turns : list nat) : list (nat * effect) :=
  match turns with
  | [] => []
  | i :: turns' =>
      match todo !! i with
      | Some (e :: rest) => (i, e) :: interleave (<[i := rest]> todo) turns'
      | _ => interleave todo turns'
      end
  end.

(** balance/encoder.go:65-68 and 13: after a message is encoded the counter [c] goes up by one; if it is then a multiple of
    128, the length of the message goes into the histogram kafka.span.size.  [buf.Len()] (line 67) is the length of the slice
    that becomes the value (line 70).  The counter is shared, but there is one goroutine that sends (main.go:132). *)
Definition make_sized (c : Z) (m : mem) (s : send) : option (mem * message * Z * list Z) :=
  match make_message m (sn_enc s) (sn_order s) (sn_span s) with
  | None => None
  | Some (m1, msg) =>
      let c := u64 (c + 1) in
      Some (m1, msg, c, if c mod 128 =? 0 then [Z.of_nat (length (cell_get m1 (msg_value msg)))] else [])
  end.

(** balance/sender.go:26-34. *)
Fixpoint send_sized (c : Z) (m : mem) (l : list send) : option (mem * list message * Z * list Z) :=
  match l with
  | [] => Some (m, [], c, [])
  | s :: l' =>
      match make_sized c m s with
      | None => None
      | Some (m1, msg, c1, z1) =>
          match send_sized c1 m1 l' with
          | None => None
          | Some (m2, msgs, c2, z2) => Some (m2, msg :: msgs, c2, z1 ++ z2)
          end
      end
  end.
