(** What Jaeger documents mean that give a member more than once, for C113. *)
From Verif Require Import Base SpanModel JsonSpec DocSpec ParseSpec JaegerModel StdJsonSpec.

(** A list may be null, which is the same as empty. *)
Definition as_list (v : json) : option (list json) := match v with JNull => Some [] | JArr l => Some l | _ => None end.
Definition members_of (v : json) : list (bytes * json) := match v with JObj ms => ms | _ => [] end.
(** A list of objects on top of another one: the objects at the same place become one, with the members of both. *)
Fixpoint on_top (below : list (list (bytes * json))) (above : list json) : list (list (bytes * json)) :=
  match above with
  | [] => below
  | v :: above => (default [] (head below) ++ members_of v) :: on_top (tail below) above
  end.
(** All the lists of a member on top of each other; an empty one removes what is below it. *)
Definition pile (lists : list (list json)) : list (list (bytes * json)) :=
  foldl (fun below l => match l with [] => [] | _ => on_top below l end) [] lists.
(** The objects that are seen: as many as the last list has. *)
Definition top_of (lists : list (list json)) : list json := map JObj (take (length (List.last lists [])) (pile lists)).
(** The elements of all lists must be readable. *)
Definition piled {A} (f : json -> option A) (k : gostring) (ms : list (bytes * json)) : option (list A) :=
  lists ← traverse as_list (named k ms);
  _ ← traverse (traverse f) lists;
  traverse f (top_of lists).

(** As in StdJsonSpec.v, with piles for lists. *)
Definition piled_span (v : json) : option jspan :=
  ms ← as_members v;
  trace ← last_of as_ident 0 (named (str "traceid") ms);
  id ← last_of as_ident 0 (named (str "spanid") ms);
  name ← last_of as_str [] (present (str "operationname") ms);
  refs ← piled jaeger_ref_of (str "references") ms;
  ts ← last_of as_u64 0 (present (str "starttime") ms);
  dur ← last_of as_u64 0 (present (str "duration") ms);
  process ← last_of as_str [] (present (str "processid") ms);
  tags ← piled jaeger_tag_of (str "tags") ms;
  Some (JSpan trace id name refs ts dur process tags).
(** The processes of several objects add up; null removes those before it. *)
Definition all_entries (vs : list json) : list (bytes * json) :=
  foldl (fun es v => match v with JNull => [] | _ => es ++ members_of v end) [] vs.
Definition process_entry (m : bytes * json) : option (gostring * gostring) := option_map (pair m.1) (jaeger_process_of m.2).
Definition piled_processes (ms : list (bytes * json)) : option (gmap gostring gostring) :=
  objs ← traverse as_members (named (str "processes") ms);
  _ ← traverse (traverse process_entry) objs;
  procs ← traverse process_entry (all_entries (named (str "processes") ms));
  Some (foldl (fun m kv => <[kv.1 := kv.2]> m) (∅ : gmap gostring gostring) procs).
Definition piled_data (v : json) : option jdata :=
  ms ← as_members v;
  spans ← piled piled_span (str "spans") ms;
  procs ← piled_processes ms;
  Some (JData spans procs).
Definition piled_document (v : json) : option (list jdata) :=
  ms ← as_members v;
  piled piled_data (str "data") ms.
