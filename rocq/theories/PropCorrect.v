(** Properties C31-C35: roots and timing correction. *)
From Coq Require Import Sorted.
From Verif Require Import Base IdModel SpanModel TreeModel TreeSpec TreeProofs CorrectProofs RootProofs.

(** C31, C32: correction from a root candidate ends (recursion no deeper than the number of spans), visits exactly
    the spans connected to the root, each once, and computes the start along the path; other spans stay. *)
Theorem C32_path_offset :
  forall spans ri root fuel,
  NoDup (ids spans) -> Forall (fun s => int64_ok (s_ts s)) spans -> spans !! ri = Some root -> root_candidate spans root ->
  (length spans <= fuel)%nat ->
  exists out seen, correct fuel spans ri None 0 = Some (out, seen) /\
    length out = length spans /\ NoDup seen /\
    (forall i, i ∈ seen <-> exists s, spans !! i = Some s /\ connected spans root s) /\
    (forall l i, descends spans root l -> spans !! i = Some (List.last l root) ->
       out !! i = Some (retimed (List.last l root) (corrected_start root l) (own_duration (List.last l root)))) /\
    (forall i s, spans !! i = Some s -> ~ connected spans root s -> out !! i = Some s).
Proof. exact correct_whole. Qed.
Print Assumptions C32_path_offset.

(** The same for traces as the program builds them. *)
Theorem C31_terminates :
  forall ord now tr adds ri, map_order ord ->
  let spans := t_spans (add_all ord adds (new_tree now tr)) in
  Forall (fun s => int64_ok (s_ts s)) spans -> ri ∈ roots spans ->
  exists out seen, correct (length spans) spans ri None 0 = Some (out, seen) /\ NoDup seen /\ length out = length spans.
Proof. exact correct_terminates. Qed.
Print Assumptions C31_terminates.

(** C33: nothing changes but start and duration. *)
Theorem C33_only_times :
  forall spans ri root fuel,
  NoDup (ids spans) -> Forall (fun s => int64_ok (s_ts s)) spans -> spans !! ri = Some root -> root_candidate spans root ->
  (length spans <= fuel)%nat ->
  exists out seen, correct fuel spans ri None 0 = Some (out, seen) /\
    Forall2 (fun s s' => exists start dur, s' = retimed s start dur) spans out.
Proof. exact correct_all. Qed.
Print Assumptions C33_only_times.

(** A root (5), a shared span below it (4) whose server clock is 1000 behind, its child (3), a child with a start
    in 1970 (6), and a cycle (2, 1). *)
Example C31_C32_C33_instance :
  let y := 1600000000000000000 in
  let sp id parent st t := Span id parent 9 [] [] st 10 ∅ t in
  let a := sp 6 4 77 (Timings 0 0 0 0) in
  let b := sp 5 0 y (Timings 0 0 0 0) in
  let c := sp 4 5 (y + 1) (Timings (y + 100) (y + 200) (y - 1000 + 180) (y - 1000 + 120)) in
  let d := sp 3 4 (y - 1000 + 130) (Timings 0 0 0 0) in
  let e := sp 2 1 y (Timings 0 0 0 0) in
  let f := sp 1 2 y (Timings 0 0 0 0) in
  let spans := [a; b; c; d; e; f] in
  NoDup (ids spans) /\ Forall (fun s => int64_ok (s_ts s)) spans /\ spans !! 1%nat = Some b /\ root_candidate spans b /\
  descends spans b [c; d] /\ skew c = 1000 /\ corrected_start b [c; d] = y + 130 /\ corrected_start b [c; a] = y + 100 /\
  correct 6 spans 1 None 0 = Some ([retimed a (y + 100) 10; b; retimed c (y + 100) 100; retimed d (y + 130) 10; e; f], [1; 2; 0; 3]%nat) /\
  roots spans = [1%nat].
Proof.
  intros y sp a b c d e f spans. split; [eapply bool_decide_unpack; vm_compute; exact I|].
  split; [repeat constructor; unfold int64_ok; cbn; unfold y; p2; lia|]. split; [done|].
  split; [split; [apply elem_of_list_further, elem_of_list_here|right; eapply bool_decide_unpack; vm_compute; exact I]|].
  split.
  - split; [split; [apply elem_of_list_lookup_2 with 2%nat; done|done]|]. split; [|done]. split; [apply elem_of_list_lookup_2 with 3%nat; done|done].
  - by vm_compute.
Qed.

(** C34: the skew puts the server interval into the middle of the client interval. *)
Theorem C34_centred :
  forall cs cr ss sr,
  0 < cs -> cs <= cr -> 0 < sr -> sr <= ss -> cr + cs < 2^63 -> ss + sr < 2^63 -> ss - sr <= cr - cs ->
  let k := screw (Timings cs cr ss sr) in
  cs <= sr + k /\ ss + k <= cr /\ Z.abs ((sr + k - cs) - (cr - (ss + k))) <= 1.
Proof. exact screw_centres. Qed.
Print Assumptions C34_centred.

(** C34, seen in the result: a child that starts while the server works is shown inside its parent. *)
Theorem C34_child_inside :
  forall root l p c,
  let off := skew root + total_skew l in
  let start := corrected_start root (l ++ [p]) in
  let start' := corrected_start root (l ++ [p; c]) in
  four_timings p -> ~ four_timings c ->
  0 < tCS (s_timings p) -> tCS (s_timings p) <= tCR (s_timings p) -> 0 < tSR (s_timings p) -> tSR (s_timings p) <= tSS (s_timings p) ->
  tCR (s_timings p) + tCS (s_timings p) < 2^63 -> tSS (s_timings p) + tSR (s_timings p) < 2^63 ->
  tSS (s_timings p) - tSR (s_timings p) <= tCR (s_timings p) - tCS (s_timings p) ->
  tSR (s_timings p) <= s_ts c <= tSS (s_timings p) ->
  1577836800 * 1000000000 <= tCS (s_timings p) + off -> tCR (s_timings p) + off < 2^63 ->
  start <= start' <= start + own_duration p.
Proof. exact child_inside. Qed.
Print Assumptions C34_child_inside.

Example C34_instance :
  let y := 1600000000000000000 in
  let t := Timings (y + 100) (y + 201) (y - 1000 + 180) (y - 1000 + 120) in
  screw t = 1000 /\
  let p := Span 4 5 9 [] [] (y + 1) 10 ∅ t in
  let c := Span 3 4 9 [] [] (y - 1000 + 130) 10 ∅ (Timings 0 0 0 0) in
  let root := Span 5 0 9 [] [] y 10 ∅ (Timings 0 0 0 0) in
  corrected_start root [p] = y + 100 /\ corrected_start root [p; c] = y + 130 /\ own_duration p = 101.
Proof. by vm_compute. Qed.

(** C35: exactly the spans that are their own parent or whose parent is absent. *)
Theorem C35_roots :
  forall spans i, i ∈ roots spans <-> exists s, spans !! i = Some s /\ root_candidate spans s.
Proof. exact roots_exact. Qed.
Print Assumptions C35_roots.

(** C35: several candidates with the same parent: the injected span and what it does to the candidates. *)
Theorem C35_injected_root :
  forall ord now t T P, map_order ord -> descending (ids (t_spans t)) -> Forall (fun s => s_trace s = T) (t_spans t) ->
  (1 < length (roots (t_spans t)))%nat -> (forall s, root_candidate (t_spans t) s -> s_parent s = P) ->
  exists t' rs first last f, find_roots ord now t = (t', rs) /\
    f = Span P T T (str "fake-root") (str "fake-root") first (wrap64 (last - first)) ∅ (Timings 0 0 0 0) /\
    (exists l, hull l first last /\ forall s, s ∈ l <-> root_candidate (t_spans t) s) /\
    P ∉ ids (t_spans t) /\ t_spans t' ≡ₚ f :: t_spans t /\ descending (ids (t_spans t')) /\
    (T ∉ ids (t_spans t) -> exists i, rs = [i] /\ t_spans t' !! i = Some f) /\
    (T ∈ ids (t_spans t) -> rs = []).
Proof. exact injected_root. Qed.
Print Assumptions C35_injected_root.

(** C35: in all other cases the trace stays as it is. *)
Theorem C35_no_injection :
  forall ord now t, map_order ord -> descending (ids (t_spans t)) ->
  ~ ((1 < length (roots (t_spans t)))%nat /\ exists P, forall s, root_candidate (t_spans t) s -> s_parent s = P) ->
  find_roots ord now t = (t, roots (t_spans t)).
Proof. exact no_injection. Qed.
Print Assumptions C35_no_injection.

Example C35_instance :
  let sp id parent st du := Span id parent 9 [] [] st du ∅ (Timings 0 0 0 0) in
  let t := Tree 9 [sp 5 7 100 10; sp 4 7 90 50; sp 3 5 1 1] 0 0 3 in
  let f := Span 7 9 9 (str "fake-root") (str "fake-root") 90 50 ∅ (Timings 0 0 0 0) in
  let u := Tree 9 [sp 9 7 100 10; sp 4 7 90 50] 0 0 2 in
  roots (t_spans t) = [0; 1]%nat /\ find_roots map_to_list 3 t = (Tree 9 [f; sp 5 7 100 10; sp 4 7 90 50; sp 3 5 1 1] 0 3 4, [0%nat]) /\
  roots (t_spans u) = [0; 1]%nat /\ (find_roots map_to_list 3 u).2 = [].
Proof. by vm_compute. Qed.
