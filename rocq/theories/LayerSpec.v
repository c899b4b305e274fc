(** What Zipkin v1 documents mean whose spans repeat the members "annotations" and "binaryAnnotations", for C111. *)
From Verif Require Import Base SpanModel JsonSpec DocSpec ParseSpec JaegerModel HandlerModel HandlerSpec SwapSpec.

(** A list of objects laid over another one: the objects at the same place become one, with the members of both. *)
Fixpoint lay (below : list (list (bytes * json))) (above : list json) : option (list (list (bytes * json))) :=
  match above with
  | [] => Some below
  | v :: above =>
      ms ← as_obj v;
      rest ← lay (tail below) above;
      Some ((default [] (head below) ++ ms) :: rest)
  end.
(** Lists laid over each other, the first one at the bottom. *)
Fixpoint layers (below : list (list (bytes * json))) (lists : list (list json)) : option (list (list (bytes * json))) :=
  match lists with
  | [] => Some below
  | l :: lists => below ← lay below l; layers below lists
  end.
(** The objects that are seen: as many as the last list has that is not empty. *)
Definition shown (lists : list (list json)) : nat :=
  List.last (List.filter (fun n => negb (n =? 0)%nat) (map length lists)) 0%nat.

Definition lists_of (k : gostring) (ms : list (bytes * json)) : option (list (list json)) := traverse as_arr (all_values k ms).
(** Four places for annotations. *)
Definition layered_annotations (ms : list (bytes * json)) : option (list (Z * gostring * gostring)) :=
  lists ← lists_of (str "annotations") ms;
  objs ← layers [] (map (take 4) lists);
  traverse annotation (map JObj objs).
Definition layered_binaries (ms : list (bytes * json)) : option (list (gostring * gostring * gostring)) :=
  lists ← lists_of (str "binaryAnnotations") ms;
  objs ← layers [] lists;
  bas ← traverse binary_annotation (map JObj objs);
  Some (take (shown lists) bas).

(** As [v1_span] in DocSpec.v, with these lists. *)
Definition v1_span_layered (v : json) : option span :=
  ms ← as_obj v;
  id ← field as_id 0 (str "id") ms;
  tr ← field as_id 0 (str "traceId") ms;
  par ← field as_id 0 (str "parentId") ms;
  ts ← field as_uint 0 (str "timestamp") ms;
  dur ← field as_uint 0 (str "duration") ms;
  name ← field as_str [] (str "name") ms;
  anns ← layered_annotations ms;
  bas ← layered_binaries ms;
  let service := first_name (map snd (List.filter (fun a => bool_decide (a.1.1 <> 0)) anns) ++ map snd bas) in
  let tags := <[str "protocolVersion" := str "json v1"]>
                (foldl (fun m b => <[b.1.1 := b.1.2]> m) (∅ : gmap gostring gostring) bas) in
  let '(cs, cr, ss, sr) := (timing (str "cs") anns, timing (str "cr") anns, timing (str "ss") anns, timing (str "sr") anns) in
  let '(start, d) :=
    if decide (0 < cs /\ 0 < cr) then (cs, wrap64 (cr - cs))
    else if decide (0 < sr /\ 0 < ss) then (sr, wrap64 (ss - sr))
    else (nanos ts, nanos dur) in
  Some (Span id par tr name service start (if d =? 0 then 1000000 else d) tags (Timings cs cr ss sr)).

Definition v1_spans_layered (v : json) : option (list span) := vs ← as_arr v; traverse v1_span_layered vs.

(** As [v1_request] in SwapSpec.v, for any document. *)
Definition v1_request_any (env : environment) (q : request) (v : json) : Prop :=
  q_endpoint q = EV1 /\ declared_json (q_type q) /\ pooled_once (n_pool env) /\ zipkin_body env q v.
