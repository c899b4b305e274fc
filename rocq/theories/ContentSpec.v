(** Vocabulary for C94: what an emitted span says about its reports. *)
From Verif Require Import Base SpanModel TreeModel TreeSpec FinishModel FinishSpec.

(** The spans with id [i] that were received. *)
Definition reports (i : Z) (l : list addition) : list span := filter (fun s => s_id s = i) (map snd l).

(** Everything in [x] but its times was said by one of the spans [l]; no tag is lost, and a parent, name or service is
    missing only if none of them has one. *)
Record told (l : list span) (x : span) : Prop := Told {
  told_parent : exists g, g ∈ l /\ s_parent x = s_parent g;
  told_parent_known : s_parent x = 0 -> Forall (fun g => s_parent g = 0) l;
  told_name : exists g, g ∈ l /\ s_name x = s_name g;
  told_name_known : s_name x = [] -> Forall (fun g => s_name g = []) l;
  told_service : exists g, g ∈ l /\ s_service x = s_service g;
  told_service_known : s_service x = [] -> Forall (fun g => s_service g = []) l;
  told_tag : forall k v, s_tags x !! k = Some v -> exists g, g ∈ l /\ s_tags g !! k = Some v;
  told_key : forall g k, g ∈ l -> s_tags g !! k <> None -> s_tags x !! k <> None;
  told_timing : forall f, f ∈ [tCS; tCR; tSS; tSR] -> exists g, g ∈ l /\ f (s_timings x) = f (s_timings g) }.
