(** Property C102: how much the corrector works for a trace. *)
From Verif Require Import Base SpanModel TreeModel TreeSpec FinishProofs WorkModel WorkSpec WorkProofs.

(** The counting search is the search of the model. *)
Theorem C102_same :
  forall k f i j, (search_counting k f i j).1 = search_loop k f i j.
Proof. exact search_same. Qed.
Print Assumptions C102_same.

(** C102: a binary search compares [log2 n + 1] times, or once less. *)
Theorem C102_search :
  forall n f, (Nat.log2 (n + 1) <= (search_counting n f 0 n).2 <= halvings n)%nat.
Proof. exact search_calls_both. Qed.
Print Assumptions C102_search.

(** C102: receiving a span takes at most two binary searches and one more comparison, and moves the spans with smaller ids, none if the
    id is known. *)
Theorem C102_receive :
  forall id spans, descending (ids spans) ->
  ((add_counting id spans).1 <= 2 * halvings (length spans) + 1)%nat /\
  (add_counting id spans).2 = if decide (id ∈ ids spans) then 0%nat else smaller id (ids spans).
Proof. exact add_work. Qed.
Print Assumptions C102_receive.

(** C102: altogether as many moves as there are pairs of ids of which the greater came up later. *)
Theorem C102_moves :
  forall ord now tr adds, map_order ord -> moves ord adds (new_tree now tr) = ascents (firsts (ids (map snd adds))).
Proof. exact moves_total. Qed.
Print Assumptions C102_moves.

(** C102: the correction gets by with a depth exactly if all paths downwards are shorter; on a cycle with none. *)
Theorem C102_depth :
  forall spans node c parent offset fuel, spans !! node = Some c ->
  (correct fuel spans node parent offset <> None <-> forall l, descends spans c l -> (length l < fuel)%nat).
Proof. exact correct_depth. Qed.
Print Assumptions C102_depth.

(** C102: the counting correction is the correction of the model, and looks at every span once for every span it visits. *)
Theorem C102_looks :
  forall fuel mem node parent offset, correct_counting fuel mem node parent offset =
  option_map (fun p => (p.1, (length p.2 * length mem)%nat)) (correct fuel mem node parent offset).
Proof. exact looks_exact. Qed.
Print Assumptions C102_looks.

(** C102: finishing a trace with one root. *)
Theorem C102_finish_one :
  forall ord now t ri, descending (ids (t_spans t)) -> Forall (fun s => int64_ok (s_ts s)) (t_spans t) -> roots (t_spans t) = [ri] ->
  exists root l, t_spans t !! ri = Some root /\ reached (t_spans t) root l /\
    finish_counting ord now t = Some (2 * length (t_spans t) + length l * length (t_spans t))%nat.
Proof. exact finish_one. Qed.
Print Assumptions C102_finish_one.

(** C102: finishing any trace. *)
Theorem C102_finish :
  forall ord now t, map_order ord -> descending (ids (t_spans t)) -> Forall (fun s => int64_ok (s_ts s)) (t_spans t) ->
  exists w, finish_counting ord now t = Some w /\ (w <= (length (t_spans t) + 1) * (length (t_spans t) + 9))%nat.
Proof. exact finish_work. Qed.
Print Assumptions C102_finish.

(** Five spans received in ascending order, one of them twice: 1 is the root of the chain 1, 2, 3; 4 and 5 are each other's parents.
    All ten pairs cost a move.  Two loops over five spans and three visits make 25 looks; the correction from the root needs depth 3, from 4
    no depth is enough.  Two orphans: two candidates, of which the parents are compared, the ends taken; the search for the injected
    root; then two loops over three spans, and three visits. *)
Example C102_instance :
  let sp id parent := Span id parent 9 [] [] 1600000000000000000 10 ∅ (Timings 0 0 0 0) in
  let adds := map (fun s => (0, s)) [sp 1 1; sp 2 1; sp 3 2; sp 2 1; sp 4 5; sp 5 4] in
  let t := add_all map_to_list adds (new_tree 0 9) in
  let orphans := add_all map_to_list [(0, sp 5 7); (0, sp 4 7)] (new_tree 0 9) in
  map_order map_to_list /\ descending (ids (t_spans t)) /\ Forall (fun s => int64_ok (s_ts s)) (t_spans t) /\ roots (t_spans t) = [4%nat] /\
  moves map_to_list adds (new_tree 0 9) = 10%nat /\ add_counting 0 (t_spans t) = (4%nat, 0%nat) /\ add_counting 9 (t_spans t) = (7%nat, 5%nat) /\
  finish_counting map_to_list 0 t = Some 25%nat /\ finish_counting map_to_list 0 orphans = Some 28%nat /\
  correct 2 (t_spans t) 4 None 0 = None /\ correct 3 (t_spans t) 4 None 0 <> None /\ (forall fuel, correct fuel (t_spans t) 1 None 0 = None).
Proof.
  intros sp adds t orphans. split; [apply map_order_list|].
  assert (Et : t_spans t = [sp 5 4; sp 4 5; sp 3 2; sp 2 1; sp 1 1]) by (by vm_compute).
  split; [rewrite Et; cbn; repeat constructor|]. split; [rewrite Et; repeat (apply Forall_cons_2; [unfold int64_ok; p2; cbn; lia|]); apply Forall_nil_2|].
  do 8 (split; [vm_compute; first [reflexivity|discriminate]|]).
  intros fuel. rewrite Et. clear. apply (cycle_never _ 1 (sp 4 5) (sp 5 4)); [reflexivity| |].
  - split; [apply elem_of_list_here|]. split; [reflexivity|discriminate].
  - split; [apply elem_of_list_further, elem_of_list_here|]. split; [reflexivity|discriminate].
Qed.
