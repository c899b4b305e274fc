(** The JSON decoders with a call stack that is not endless. *)
From Verif Require Import Base SpanModel JsonModel CodecModel.

(** [None]: the call stack is full (Go ends the process then, with "stack overflow", and nothing recovers from it). *)
Definition obind {A B} (r : option (pres A)) (f : A -> pstate -> option (pres B)) : option (pres B) :=
  match r with
  | None => None
  | Some (POk a st) => f a st
  | Some PErr => Some PErr
  | Some PPanic => Some PPanic
  | Some PHang => Some PHang
  end.
Definition calm {A} (r : pres A) : option (pres A) := Some r.

(** parser_skip.go:14-90 [skip], [skipArray] and [skipObject], as [JsonModel.skip]; [room] is the number of calls of [skip]
    that may be open at the same time (with each of them at most one call of [skipArray] or [skipObject], one of [Skip], and
    a bounded number of others is open, so that the number of open calls and the size of the stack are proportional to it). *)
Fixpoint skip_in (depth : nat) (room : nat) (fuel : nat) (next : jtype) (st : pstate) {struct depth} : option (pres unit) :=
  match depth with
  | O => Some PHang
  | S depth =>
      match room with
      | O => None
      | S room =>
          match next with
          | TString => calm (pbind (read_string fuel st) (fun _ st => POk tt st))
          | TNumber => calm (pbind (read_number fuel st) (fun _ st => POk tt st))
          | TBool => calm (pbind (read_boolean fuel st) (fun _ st => POk tt st))
          | TNull => calm (pbind (read_null fuel st) (fun _ st => POk tt st))
          | TObjBegin => obind (calm (consume1 TObjBegin st)) (fun _ st => skip_members_in depth room fuel st)
          | TArrBegin => obind (calm (consume1 TArrBegin st)) (fun _ st => skip_elements_in depth room fuel st)
          | _ => calm PErr
          end
      end
  end
with skip_elements_in (depth : nat) (room : nat) (fuel : nat) (st : pstate) {struct depth} : option (pres unit) :=
  match depth with
  | O => Some PHang
  | S depth =>
      obind (calm (next_type fuel st)) (fun next st =>
      if decide (next = TArrEnd) then calm (consume1 TArrEnd st)
      else obind (skip_in depth room fuel next st) (fun _ st => skip_elements_in depth room fuel st))
  end
with skip_members_in (depth : nat) (room : nat) (fuel : nat) (st : pstate) {struct depth} : option (pres unit) :=
  match depth with
  | O => Some PHang
  | S depth =>
      obind (calm (next_type fuel st)) (fun next st =>
      if decide (next = TObjEnd) then calm (consume1 TObjEnd st)
      else obind (calm (read_string fuel st)) (fun _ st =>
           obind (calm (next_type fuel st)) (fun next st =>
           obind (skip_in depth room fuel next st) (fun _ st => skip_members_in depth room fuel st))))
  end.

(** parser_skip.go:5-12 [Skip]. *)
Definition Skip_in (room : nat) (fuel : nat) (st : pstate) : option (pres unit) :=
  obind (calm (next_type fuel st)) (fun next st => skip_in fuel room fuel next st).

(** The other methods of the parser (parser.go) and the decoders (bind.go, json-v1.go, json-v2.go) do not call themselves:
    the number of their open calls has a bound that does not depend on the input. *)
Definition run_op_in (room : nat) (fuel : nat) (o : op) (st : pstate) : option (pres token) :=
  match o with
  | OSkip => obind (Skip_in room fuel st) (fun _ st => calm (POk (Token TNull []) st))
  | _ => calm (run_op fuel o st)
  end.

(** As [CodecModel.exec]. *)
Fixpoint exec_in {A} (room : nat) (fuel : nat) (p : prog A) (st : pstate) : option (xres A) :=
  match p with
  | Ret a => Some (XDone a)
  | OutOfFuel => Some XHang
  | Call o k e =>
      match run_op_in room fuel o st with
      | None => None
      | Some (POk t st') => exec_in room fuel (k t) st'
      | Some PErr => Some (XDone e)
      | Some PPanic => Some XPanic
      | Some PHang => Some XHang
      end
  end.

(** codec/json-v2.go:31-56 [ParseJsonV2] and codec/json-v1.go:50-79 [ParseJsonV1]. *)
Definition ParseJsonV2_in (room : nat) (fuel : nat) (buf : bytes) (input : rsrc) : option (xres (option (list span))) :=
  option_map (xmap v2_result) (exec_in room fuel (parse_v2_prog fuel) (new_parser input buf)).
Definition ParseJsonV1_in (room : nat) (fuel : nat) (buf : bytes) (pool : list spanV1) (input : rsrc) : option (xres (option (list span) * list spanV1)) :=
  option_map (xmap (v1_result (length pool))) (exec_in room fuel (parse_v1_prog fuel pool) (new_parser input buf)).
