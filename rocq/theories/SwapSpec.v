(** What may change places in a document, for C108. *)
From Verif Require Import Base SpanModel JsonModel CodecModel JsonSpec DocSpec ParseSpec JaegerModel HandlerModel HandlerSpec StdJsonModel StdJsonSpec FormatSpec.

(** The members whose names are [k] when folded. *)
Definition members_named (fold : gostring -> gostring) (k : gostring) (ms : list (bytes * json)) : list (bytes * json) :=
  List.filter (fun m => bool_decide (fold m.1 = k)) ms.

(** RFC 8259: an object is an unordered collection.  Values are alike if they differ in the order of members with different names,
    in any of the objects in them.  Members with the same name keep their order; [fold] tells which names are the same. *)
Inductive alike (fold : gostring -> gostring) : json -> json -> Prop :=
  | al_same v : alike fold v v
  | al_arr l l' : Forall2 (alike fold) l l' -> alike fold (JArr l) (JArr l')
  | al_obj ms ms' :
      (forall k, Forall2 (fun m m' => m.1 = m'.1 /\ alike fold m.2 m'.2) (members_named fold k ms) (members_named fold k ms')) ->
      alike fold (JObj ms) (JObj ms').

(** The only member [k] of an object is a list, which is [a] here and [a'] there; everything else is the same. *)
Definition other_list (fold : gostring -> gostring) (k : gostring) (a a' : list json) (v v' : json) : Prop :=
  exists n l1 l2, fold n = k /\ v = JObj (l1 ++ (n, JArr a) :: l2) /\ v' = JObj (l1 ++ (n, JArr a') :: l2) /\
  members_named fold k (l1 ++ l2) = [].

(** There is at most one name among these. *)
Definition one_name (l : list gostring) : Prop := forall s t, s ∈ l -> t ∈ l -> s <> [] -> t <> [] -> s = t.

(* ---------- Zipkin version 1 ---------- *)

Definition timed (a : Z * gostring * gostring) : bool := bool_decide (a.1.1 <> 0).
(** Not more than four annotations in another order: different things happened, in one service. *)
Definition events_shuffled (a a' : list json) : Prop :=
  a ≡ₚ a' /\ (length a <= 4)%nat /\
  forall l, traverse annotation a = Some l -> NoDup (map (fun x => x.1.2) (List.filter timed l)) /\ one_name (map snd (List.filter timed l)).
(** Binary annotations in another order: different keys, one service. *)
Definition binaries_shuffled (a a' : list json) : Prop :=
  a ≡ₚ a' /\ forall l, traverse binary_annotation a = Some l -> NoDup (map (fun x => x.1.1) l) /\ one_name (map snd l).

Inductive v1_alike : json -> json -> Prop :=
  | v1_members v v' : alike exactly v v' -> v1_alike v v'
  | v1_events a a' v v' : other_list exactly (str "annotations") a a' v v' -> events_shuffled a a' -> v1_alike v v'
  | v1_binaries a a' v v' : other_list exactly (str "binaryAnnotations") a a' v v' -> binaries_shuffled a a' -> v1_alike v v'
  | v1_then v1 v2 v3 : v1_alike v1 v2 -> v1_alike v2 v3 -> v1_alike v1 v3.

(* ---------- Jaeger ---------- *)

(** The key under which a tag with a string is kept. *)
Definition kept_key (t : jtag) : option gostring :=
  match jt_value t with JVString _ => Some (if decide (jt_key t = str "component") then str "lc" else jt_key t) | JVOther => None end.
Definition tags_shuffled (a a' : list json) : Prop :=
  a ≡ₚ a' /\ forall l, traverse jaeger_tag_of a = Some l -> NoDup (omap kept_key l).
(** Not more than one reference names a parent. *)
Definition refs_shuffled (a a' : list json) : Prop :=
  a ≡ₚ a' /\ forall l, traverse jaeger_ref_of a = Some l -> (length (List.filter (fun r => bool_decide (jr_type r = str "CHILD_OF")) l) <= 1)%nat.

(** Spans. *)
Inductive jaeger_alike : json -> json -> Prop :=
  | ja_tags a a' v v' : other_list fold_case (str "tags") a a' v v' -> tags_shuffled a a' -> jaeger_alike v v'
  | ja_refs a a' v v' : other_list fold_case (str "references") a a' v v' -> refs_shuffled a a' -> jaeger_alike v v'.
(** Documents: members anywhere change places, or the lists of one span. *)
Inductive jaeger_docs : json -> json -> Prop :=
  | jd_members v v' : alike fold_case v v' -> jaeger_docs v v'
  | jd_span v v' d1 d2 o o' s1 s2 x x' : other_list fold_case (str "data") (d1 ++ o :: d2) (d1 ++ o' :: d2) v v' ->
      other_list fold_case (str "spans") (s1 ++ x :: s2) (s1 ++ x' :: s2) o o' -> jaeger_alike x x' -> jaeger_docs v v'
  | jd_then v1 v2 v3 : jaeger_docs v1 v2 -> jaeger_docs v2 v3 -> jaeger_docs v1 v3.

(* ---------- requests ---------- *)

(** The body begins with a text of the value; buffers and fuel are large enough. *)
Definition zipkin_body (env : environment) (q : request) (v : json) : Prop :=
  exists m l w rest chunks e, reads env q (Src chunks e) /\ text m v l /\ ws w /\ delimited v rest /\ concat chunks = w ++ l ++ rest /\
  (m <= length (n_buf env))%nat /\ (5 <= length (n_buf env))%nat /\ no_eager_error e /\
  (length chunks + length (concat chunks) < n_fuel env)%nat /\ (2 * length l + 2 < n_fuel env)%nat.
Definition v2_request (env : environment) (q : request) (v : json) : Prop := q_endpoint q = EV2 /\ zipkin_body env q v.
Definition v1_request (env : environment) (q : request) (v : json) : Prop :=
  q_endpoint q = EV1 /\ declared_json (q_type q) /\ pooled_once (n_pool env) /\ zipkin_body env q v /\
  forall vs, v = JArr vs -> Forall (fun v => at_most_once (str "annotations") v /\ at_most_once (str "binaryAnnotations") v) vs.
Definition jaeger_request (env : environment) (q : request) (v : json) : Prop :=
  n_jaeger env = jaeger_body /\ q_endpoint q = EJaeger /\ exists chunks e t rest, reads env q (Src chunks e) /\
  begins_with (concat chunks) t rest /\ ended t rest /\ end_visible t rest e /\ means plain_ids t v /\ given_once v /\ doubles v.
(** Both requests put the same spans on the input and are answered alike. *)
Definition treated_alike (env : environment) (q : request) (env' : environment) (q' : request) : Prop :=
  exists acts, handle env q = XDone acts /\ handle env' q' = XDone acts.
