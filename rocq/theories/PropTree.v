(** Properties C28-C30: the spans of one trace and merging. *)
From Coq Require Import Sorted.
From Verif Require Import Base IdModel SpanModel TreeModel TreeSpec TreeProofs CorrectProofs RootProofs.

(** C28: ids strictly descending; lookups find exactly the ids that were added; the counter counts modulo 2^16. *)
Theorem C28_trace_contents :
  forall ord now tr adds, map_order ord ->
  let spans := t_spans (add_all ord adds (new_tree now tr)) in
  descending (ids spans) /\
  (forall id, id ∈ ids spans <-> id ∈ ids (map snd adds)) /\
  (forall id, is_Some (get_span_ref id spans) <-> id ∈ ids (map snd adds)) /\
  (forall id i, get_span_ref id spans = Some i -> exists s, spans !! i = Some s /\ s_id s = id) /\
  t_count (add_all ord adds (new_tree now tr)) = Z.of_nat (length spans) mod 2^16.
Proof. exact tree_contents. Qed.
Print Assumptions C28_trace_contents.

(** C28: the span held for an id is the one that results from the additions with this id alone. *)
Theorem C28_ids_independent :
  forall ord now tr adds s, map_order ord ->
  (s ∈ t_spans (add_all ord adds (new_tree now tr)) <-> s ∈ t_spans (add_all ord (with_id (s_id s) adds) (new_tree now tr))).
Proof. exact tree_per_id. Qed.
Print Assumptions C28_ids_independent.

Example C28_instance :
  let sp id nm := Span id 0 9 nm [] 0 0 ∅ (Timings 0 0 0 0) in
  let adds := [(1, sp 4 (str "a")); (2, sp (-3) (str "b")); (3, sp 7 (str "c")); (4, sp 4 (str "d")); (5, sp 5 (str "e"))] in
  map_order map_to_list /\
  t_spans (add_all map_to_list adds (new_tree 0 9)) = [sp 7 (str "c"); sp 5 (str "e"); sp 4 (str "a"); sp (-3) (str "b")] /\
  get_span_ref 5 (t_spans (add_all map_to_list adds (new_tree 0 9))) = Some 1%nat /\
  get_span_ref 6 (t_spans (add_all map_to_list adds (new_tree 0 9))) = None /\
  with_id 4 adds = [(1, sp 4 (str "a")); (4, sp 4 (str "d"))].
Proof. split; [intros m; reflexivity|]. by vm_compute. Qed.

(** C29: both arrival orders give the same span, the server's name, service and tags before the client's, except
    that the start and duration are those of the half that came first. *)
Theorem C29_halves :
  forall ord now tr n1 n2 c s, map_order ord -> s_id c = s_id s -> s_trace c = s_trace s ->
  s_parent c = s_parent s \/ s_parent c = 0 \/ s_parent s = 0 -> client_half c -> server_half s ->
  exists r, s_name r = first_nonempty (s_name s) (s_name c) /\ s_service r = first_nonempty (s_service s) (s_service c) /\
    s_tags r = s_tags s ∪ s_tags c /\
    s_timings r = Timings (tCS (s_timings c)) (tCR (s_timings c)) (tSS (s_timings s)) (tSR (s_timings s)) /\
    t_spans (add_all ord [(n1, c); (n2, s)] (new_tree now tr)) = [retimed r (s_ts c) (s_dur c)] /\
    t_spans (add_all ord [(n1, s); (n2, c)] (new_tree now tr)) = [retimed r (s_ts s) (s_dur s)].
Proof. exact halves. Qed.
Print Assumptions C29_halves.

(** C29: nor does that difference show in an emitted trace if the shared span has all four timings. *)
Theorem C29_hidden_by_correction :
  forall s1 s2 ri root fuel, NoDup (ids s1) -> Forall2 same_but_time s1 s2 ->
  Forall (fun s => int64_ok (s_ts s)) s1 -> Forall (fun s => int64_ok (s_ts s)) s2 ->
  s1 !! ri = Some root -> root_candidate s1 root -> (length s1 <= fuel)%nat ->
  exists out1 out2 seen1 seen2, correct fuel s1 ri None 0 = Some (out1, seen1) /\ correct fuel s2 ri None 0 = Some (out2, seen2) /\
    forall i s, s1 !! i = Some s -> connected s1 root s -> out1 !! i = out2 !! i.
Proof. exact order_hidden. Qed.
Print Assumptions C29_hidden_by_correction.

Example C29_instance :
  let c := Span 4 0 9 (str "get") (str "client") 100 50 {[str "k" := str "c"]} (Timings 100 150 0 0) in
  let s := Span 4 2 9 [] (str "server") 110 20 (<[str "k" := str "s"]> {[str "j" := str "s"]}) (Timings 0 0 130 110) in
  let r st du := Span 4 2 9 (str "get") (str "server") st du (<[str "k" := str "s"]> {[str "j" := str "s"]}) (Timings 100 150 130 110) in
  client_half c /\ server_half s /\
  let view s := (s_parent s, s_name s, s_service s, s_ts s, s_dur s, map_to_list (s_tags s), s_timings s) in
  map view (t_spans (add_all map_to_list [(0, c); (1, s)] (new_tree 0 9))) = [view (r 100 50)] /\
  map view (t_spans (add_all map_to_list [(0, s); (1, c)] (new_tree 0 9))) = [view (r 110 20)] /\
  same_but_time (r 100 50) (r 110 20) /\ root_candidate [r 100 50] (r 100 50) /\
  option_map fst (correct 1 [r 100 50] 0 None 0) = Some [r 100 50] /\ option_map fst (correct 1 [r 110 20] 0 None 0) = Some [r 100 50].
Proof.
  split; [by repeat split; vm_compute|]. split; [repeat split; try (by vm_compute); left; by vm_compute|]. split; [vm_compute; reflexivity|]. split; [vm_compute; reflexivity|].
  split; [right; split; [by repeat split|by exists 110, 20]|]. split; [|by vm_compute].
  split; [apply elem_of_list_here|]. right. intros H. apply elem_of_list_singleton in H. discriminate.
Qed.

(** C30: identity, start and duration stay; a tag has the server's value if there is one. *)
Theorem C30_merge_keeps :
  forall ord s new, map_order ord ->
  let r := merge_spans ord s new in
  s_id r = s_id s /\ s_parent r = s_parent s /\ s_trace r = s_trace s /\ s_ts r = s_ts s /\ s_dur r = s_dur s /\
  dom (s_tags r) = dom (s_tags s) ∪ dom (s_tags new) /\
  (forall k v, s_tags r !! k = Some v <->
     if decide (from_server new) then s_tags new !! k = Some v \/ (s_tags new !! k = None /\ s_tags s !! k = Some v)
     else s_tags s !! k = Some v \/ (s_tags s !! k = None /\ s_tags new !! k = Some v)).
Proof. exact merge_keeps. Qed.
Print Assumptions C30_merge_keeps.

Example C30_instance :
  let c := Span 4 0 9 (str "get") (str "client") 100 50 (<[str "k" := str "c"]> {[str "i" := str "c"]}) (Timings 100 150 0 0) in
  let s := Span 4 2 9 [] (str "server") 110 20 (<[str "k" := str "s"]> {[str "j" := str "s"]}) (Timings 0 0 130 110) in
  s_tags (merge_spans map_to_list c s) !! str "k" = Some (str "s") /\ s_tags (merge_spans map_to_list s c) !! str "k" = Some (str "s") /\
  s_tags (merge_spans map_to_list c s) !! str "i" = Some (str "c") /\ s_ts (merge_spans map_to_list s c) = 110.
Proof. by vm_compute. Qed.
