(** Property C63: what [debugPrintTrace] prints. *)
From Verif Require Import Base SpanModel TreeModel TreeSpec DebugModel DebugSpec DebugProofs DebugOrder.

(** C63: the spans that are printed are those at most six levels below a root candidate, always going to one of the
    first 32 children; the indentation is the depth. *)
Theorem C63_printed :
  forall spans n s,
  LNode n s ∈ debug_print DebugLevel spans <->
  exists root l, root_candidate spans root /\ walks spans root l /\ n = length l /\ (n <= 6)%nat /\ List.last l root = s.
Proof. exact printed_nodes. Qed.
Print Assumptions C63_printed.

(** ... so in a trace without large fan-out everything within six levels of a root. *)
Theorem C63_all :
  forall spans n s, (forall p, p ∈ spans -> (length (kids spans p) <= 32)%nat) ->
  LNode n s ∈ debug_print DebugLevel spans <->
  exists root l, root_candidate spans root /\ descends spans root l /\ n = length l /\ (n <= 6)%nat /\ List.last l root = s.
Proof. exact printed_all. Qed.
Print Assumptions C63_all.

(** C63: no span of a trace is printed twice, and the output is short, even if spans are each other's parents. *)
Theorem C63_once :
  forall ord now tr adds lvl, map_order ord -> NoDup (nodes (debug_print lvl (t_spans (add_all ord adds (new_tree now tr))))).
Proof. exact once_trace. Qed.
Print Assumptions C63_once.

Theorem C63_short :
  forall ord now tr adds lvl, map_order ord ->
  let spans := t_spans (add_all ord adds (new_tree now tr)) in (length (debug_print lvl spans) <= 3 * length spans + 1)%nat.
Proof. exact size_trace. Qed.
Print Assumptions C63_short.

(** C63: the line of a span comes after its parent's line, which is the last one before it that is indented less; a
    line that is not indented is a root candidate's, and comes after a head line. *)
Theorem C63_indented :
  forall lvl spans l1 n c l2, debug_print lvl spans = l1 ++ LNode n c :: l2 ->
  (n = 0%nat /\ root_candidate spans c /\ exists l0 t i, l1 = l0 ++ [LHead t i]) \/
  (exists m l0 p mid, n = S m /\ l1 = l0 ++ LNode m p :: mid /\ child spans p c /\ forall k s, LNode k s ∈ mid -> (m < k)%nat).
Proof. exact indented. Qed.
Print Assumptions C63_indented.

(** C63: a cut because of depth. *)
Theorem C63_deep :
  forall spans n, LDeep n ∈ debug_print DebugLevel spans <->
  n = 6%nat /\ exists root l, root_candidate spans root /\ walks spans root l /\ length l = 6%nat /\ kids spans (List.last l root) <> [].
Proof. exact cut_deep. Qed.
Print Assumptions C63_deep.

(** C63: a cut because of more than 32 children; the number is one more than the number of children that are left out. *)
Theorem C63_many :
  forall spans n k, LMany n k ∈ debug_print DebugLevel spans <->
  exists root l, root_candidate spans root /\ walks spans root l /\ length l = n /\ (n < 6)%nat /\
    let c := kids spans (List.last l root) in (32 < length c)%nat /\ k = Z.of_nat (length (drop 32 c)) + 1.
Proof. exact cut_many. Qed.
Print Assumptions C63_many.

Theorem C63_many_refuted :
  exists spans n k, LMany n k ∈ debug_print DebugLevel spans /\
  exists root, root_candidate spans root /\ kids spans root = take 33 (kids spans root) /\ k = 2 /\ length (drop 32 (kids spans root)) = 1%nat /\ n = 0%nat.
Proof. exact many_wrong. Qed.
Print Assumptions C63_many_refuted.

(** C63: the order of the lines.  What comes directly below the line of a span: its first 32 children, in the order of
    the trace, and a last line if there are more; only such a line at the sixth level. *)
Theorem C63_children :
  forall lvl spans l1 n p l2, debug_print lvl spans = l1 ++ LNode n p :: l2 ->
  direct n (inside n l2) =
    (if (n <? 6)%nat then map (LNode (S n)) (take 32 (kids spans p)) else []) ++
    (if (n <? 6)%nat
     then if (32 <? length (kids spans p))%nat then [LMany n (Z.of_nat (length (drop 32 (kids spans p))) + 1)] else []
     else match kids spans p with [] => [] | _ => [LDeep n] end).
Proof. exact children_in_order. Qed.
Print Assumptions C63_children.

(** C63: the lines that are below no span: for each root candidate, in the order of the trace, a head line with its
    number and the trace of the first one, and its own line; at the end an empty line. *)
Theorem C63_roots :
  forall spans r0 rs, tops spans = r0 :: rs ->
  outer (debug_print DebugLevel spans) = concat (imap (fun i root => [LHead (s_trace r0) i; LNode 0 root]) (tops spans)) ++ [LBlank] /\
  List.last (debug_print DebugLevel spans) (LDeep 0) = LBlank.
Proof. exact roots_in_order. Qed.
Print Assumptions C63_roots.

(** C63: nothing is printed exactly if the log level is not debug (also if it is trace) or if there is no root. *)
Theorem C63_silent :
  forall lvl spans, debug_print lvl spans = [] <-> lvl <> DebugLevel \/ forall s, ~ root_candidate spans s.
Proof. exact silent. Qed.
Print Assumptions C63_silent.

(** Two roots, a chain of eight spans, a fan of 34, and two spans that are each other's parent. *)
Example C63_instance :
  let sp id parent := Span id parent 9 [] [] 0 0 ∅ (Timings 0 0 0 0) in
  let adds := map (fun s => (0, s)) ([sp 1 1; sp 2 1; sp 3 2; sp 4 3; sp 5 4; sp 6 5; sp 7 6; sp 8 7; sp 20 21; sp 21 20; sp 50 49] ++ map (fun i => sp (100 + Z.of_nat i) 50) (seq 0 34)) in
  let spans := t_spans (add_all map_to_list adds (new_tree 0 9)) in
  let show l := match l with LHead t i => [- t; Z.of_nat i] | LNode n s => [Z.of_nat n; s_id s] | LDeep n => [Z.of_nat n; -1] | LMany n k => [Z.of_nat n; -2; k] | LBlank => [] end in
  map show (debug_print DebugLevel spans) =
    [[-9; 0]; [0; 50]] ++ map (fun i => [1; 133 - Z.of_nat i]) (seq 0 32) ++ [[0; -2; 3]; [-9; 1]; [0; 1]; [1; 2]; [2; 3]; [3; 4]; [4; 5]; [5; 6]; [6; 7]; [6; -1]; []] /\
  debug_print TraceLevel spans = [].
Proof. by vm_compute. Qed.
