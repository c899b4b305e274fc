(** What Zipkin v1 and v2 documents describe, in terms of the JSON value. *)
From Verif Require Import Base IdSpec SpanModel JsonSpec.

(* ---------- reading members of objects ---------- *)

(** The values of all members with the name [k]. *)
Definition all_values (k : gostring) (ms : list (bytes * json)) : list json :=
  map snd (List.filter (fun m => bool_decide (m.1 = k)) ms).

(** Partial functions on lists: all or nothing. *)
Fixpoint traverse {A B} (f : A -> option B) (l : list A) : option (list B) :=
  match l with
  | [] => Some []
  | a :: l' => match f a, traverse f l' with Some b, Some bs => Some (b :: bs) | _, _ => None end
  end.

(** The member [k]: every occurrence must be readable by [f]; the last one counts; [dflt] if there is none. *)
Definition field {A} (f : json -> option A) (dflt : A) (k : gostring) (ms : list (bytes * json)) : option A :=
  option_map (fun l => List.last l dflt) (traverse f (all_values k ms)).

Definition as_obj (v : json) : option (list (bytes * json)) := match v with JObj ms => Some ms | _ => None end.
Definition as_arr (v : json) : option (list json) := match v with JArr l => Some l | _ => None end.
Definition as_str (v : json) : option gostring := match v with JStr s => Some s | _ => None end.
(** Strings, and the texts of numbers and literals. *)
Definition as_text (v : json) : option gostring :=
  match v with
  | JStr s => Some s | JNum l | JWord l => Some l
  | JTrue => Some (str "true") | JFalse => Some (str "false") | JNull => Some (str "null")
  | _ => None
  end.
(** Unsigned decimal numbers, modulo 2^64. *)
Definition as_uint (v : json) : option Z :=
  match v with
  | JNum l => if forallb (fun c => (48 <=? c) && (c <=? 57)) l then Some (dec_value 0 l mod 2^64) else None
  | _ => None
  end.
(** Ids: null (a word with n counts as null), or at most 16 hexadecimal digits read as a signed 64-bit number. *)
Definition hex_value (c : Z) : option Z :=
  if (48 <=? c) && (c <=? 57) then Some (c - 48)
  else if (97 <=? c) && (c <=? 102) then Some (c - 87)
  else if (65 <=? c) && (c <=? 70) then Some (c - 55)
  else None.
Definition signed (n : Z) : Z := if n <? 2^63 then n else n - 2^64.
Definition id_text (s : gostring) : option Z :=
  if (16 <? length s)%nat then None else option_map (fun ds => signed (value16 ds)) (traverse hex_value s).
Definition as_id (v : json) : option Z := match v with JNull | JWord (110 :: _) => Some 0 | JStr s => id_text s | _ => None end.
(** Objects with string values as maps; the last member with a name counts. *)
Definition as_map (v : json) : option (gmap gostring gostring) :=
  match v with
  | JObj ms => option_map (fun l => foldl (fun m kv => <[kv.1 := kv.2]> m) ∅ l)
                 (traverse (fun kv => option_map (pair kv.1) (as_str kv.2)) ms)
  | _ => None
  end.
(** The serviceName of the endpoint objects in the members [k] (repeated members add up). *)
Definition service_of (k : gostring) (ms : list (bytes * json)) : option gostring :=
  match traverse as_obj (all_values k ms) with
  | Some objs => field as_str [] (str "serviceName") (concat objs)
  | None => None
  end.

(** Case-insensitive comparison with a lower case word, for ASCII text; [U+017F] and [U+212A] count as s and k. *)
Fixpoint fold_case (s : gostring) : gostring :=
  match s with
  | [] => []
  | x :: s1 =>
      if (65 <=? x) && (x <=? 90) then (x + 32) :: fold_case s1
      else match s1 with
           | y :: s2 =>
               if (x =? 197) && (y =? 191) then 115 :: fold_case s2
               else match s2 with
                    | z :: s3 => if (x =? 226) && (y =? 132) && (z =? 170) then 107 :: fold_case s3 else x :: fold_case s1
                    | [] => x :: fold_case s1
                    end
           | [] => [x]
           end
  end.

(** A number of microseconds as an int64 number of nanoseconds. *)
Definition nanos (us : Z) : Z := wrap64 (us * 1000).

(* ---------- version 2 ---------- *)

Definition v2_span (v : json) : option span :=
  ms ← as_obj v;
  id ← field as_id 0 (str "id") ms;
  tr ← field as_id 0 (str "traceId") ms;
  par ← field as_id 0 (str "parentId") ms;
  ts ← field as_uint 0 (str "timestamp") ms;
  dur ← field as_uint 0 (str "duration") ms;
  name ← field as_str [] (str "name") ms;
  kind ← field as_str [] (str "kind") ms;
  tags ← field as_map ∅ (str "tags") ms;
  service ← service_of (str "localEndpoint") ms;
  let start := nanos ts in
  let d := if nanos dur =? 0 then 1000000 else nanos dur in
  let stop := wrap64 (start + d) in
  Some (Span id par tr name service start d (<[str "protocolVersion" := str "json v2"]> tags)
    (if decide (fold_case kind = str "client") then Timings start stop 0 0
     else if decide (fold_case kind = str "server") then Timings 0 0 stop start
     else Timings 0 0 0 0)).

(** The whole document: all or nothing. *)
Definition v2_spans (v : json) : option (list span) := vs ← as_arr v; traverse v2_span vs.

(* ---------- version 1 ---------- *)

(** (timestamp, value, service) *)
Definition annotation (v : json) : option (Z * gostring * gostring) :=
  ms ← as_obj v;
  ts ← field as_uint 0 (str "timestamp") ms;
  value ← field as_str [] (str "value") ms;
  service ← service_of (str "endpoint") ms;
  Some (ts, value, service).
(** (key, value, service) *)
Definition binary_annotation (v : json) : option (gostring * gostring * gostring) :=
  ms ← as_obj v;
  key ← field as_str [] (str "key") ms;
  value ← field as_text [] (str "value") ms;
  service ← service_of (str "endpoint") ms;
  Some (key, value, service).

(** The last annotation with a time and this value. *)
Definition timing (k : gostring) (anns : list (Z * gostring * gostring)) : Z :=
  List.last (map (fun a => nanos a.1.1) (List.filter (fun a => bool_decide (a.1.1 <> 0 /\ a.1.2 = k)) anns)) 0.
(** The first non-empty name. *)
Definition first_name (l : list gostring) : gostring :=
  default [] (head (List.filter (fun s => bool_decide (s <> [])) l)).

(** The member may occur once. *)
Definition at_most_once (k : gostring) (v : json) : Prop :=
  match v with JObj ms => (length (all_values k ms) <= 1)%nat | _ => True end.
Definition elements_of (k : gostring) (ms : list (bytes * json)) : option (list json) :=
  option_map (@concat json) (traverse as_arr (all_values k ms)).

Definition v1_span (v : json) : option span :=
  ms ← as_obj v;
  id ← field as_id 0 (str "id") ms;
  tr ← field as_id 0 (str "traceId") ms;
  par ← field as_id 0 (str "parentId") ms;
  ts ← field as_uint 0 (str "timestamp") ms;
  dur ← field as_uint 0 (str "duration") ms;
  name ← field as_str [] (str "name") ms;
  all_anns ← elements_of (str "annotations") ms;
  anns ← traverse annotation (take 4 all_anns);
  all_bas ← elements_of (str "binaryAnnotations") ms;
  bas ← traverse binary_annotation all_bas;
  let service := first_name (map snd (List.filter (fun a => bool_decide (a.1.1 <> 0)) anns) ++ map snd bas) in
  let tags := <[str "protocolVersion" := str "json v1"]>
                (foldl (fun m b => <[b.1.1 := b.1.2]> m) (∅ : gmap gostring gostring) bas) in
  let '(cs, cr, ss, sr) := (timing (str "cs") anns, timing (str "cr") anns, timing (str "ss") anns, timing (str "sr") anns) in
  let '(start, d) :=
    if decide (0 < cs /\ 0 < cr) then (cs, wrap64 (cr - cs))
    else if decide (0 < sr /\ 0 < ss) then (sr, wrap64 (ss - sr))
    else (nanos ts, nanos dur) in
  Some (Span id par tr name service start (if d =? 0 then 1000000 else d) tags (Timings cs cr ss sr)).

Definition v1_spans (v : json) : option (list span) := vs ← as_arr v; traverse v1_span vs.
