(** Model of the work of the corrector (C102): the same functions as in [TreeModel], with counters of what they look at. *)
From Verif Require Import Base IdModel SpanModel TreeModel.

(** Go's [sort.Search], called at correct.go:554-556 and 566-568, with the number of calls of [f]; otherwise [TreeModel.search_loop]. *)
Fixpoint search_counting (k : nat) (f : nat -> bool) (i j : nat) : nat * nat :=
  match k with
  | O => (i, 0%nat)
  | S k' =>
      if (i <? j)%nat then
        let h := ((i + j) / 2)%nat in
        let '(r, n) := if f h then search_counting k' f i h else search_counting k' f (S h) j in
        (r, S n)
      else (i, 0%nat)
  end.
(** correct.go:554-556 and 566-568. *)
Definition position_counting (id : Z) (spans : list span) : nat * nat := search_counting (length spans) (fun i => id_at spans i <=? id) 0 (length spans).

(** correct.go:81-97 [tree.AddSpan]: the comparisons of ids in [GetSpanRef] (correct.go:553-563: one more after the search, if the
    index is in range) and [Append] (correct.go:565-573), and the spans that [Append] moves. *)
Definition add_counting (id : Z) (spans : list span) : nat * nat :=
  let '(idx, n) := position_counting id spans in
  let n := if (idx <? length spans)%nat then S n else n in
  if (idx <? length spans)%nat && (id_at spans idx =? id) then (n, 0%nat)
  else let '(idx', n') := position_counting id spans in ((n + n')%nat, (length spans - idx')%nat).

(** correct.go:435-488 [correctTreeTimings]; [ChildrenOf] (correct.go:119-130) looks at every span.  As [TreeModel.correct], with the
    number of spans looked at in the place of the visited indices. *)
Fixpoint correct_counting (fuel : nat) (mem : list span) (node : nat) (parent : option nat) (offset : Z) : option (list span * nat) :=
  match fuel with
  | O => None
  | S fuel' =>
      match mem !! node with
      | None => None
      | Some s =>
          let '(s', offset') := correct_node s (parent ≫= fun p => mem !! p) offset in
          let mem := <[node := s']> mem in
          (fix go (children : list nat) (mem : list span) (looks : nat) : option (list span * nat) :=
             match children with
             | [] => Some (mem, looks)
             | c :: cs =>
                 match correct_counting fuel' mem c (Some node) offset' with
                 | Some (mem', looks') => go cs mem' (looks + looks')%nat
                 | None => None
                 end
             end) (children_of (s_id s') mem) mem (length mem)
      end
  end.

(** correct.go:132-156 [tree.Roots]: two loops over the spans. *)
Definition roots_looks (spans : list span) : nat := (2 * length spans)%nat.
(** correct.go:332-340 [allTheSameParent]: up to the first difference. *)
Fixpoint same_parent_looks (p : Z) (l : list span) : nat :=
  match l with [] => 0%nat | s :: l' => if p =? s_parent s then S (same_parent_looks p l') else 1%nat end.

(** correct.go:254-285: what finishing a trace looks at: [Roots]; for several candidates [allTheSameParent] and, if so,
    [createFakeRoot], [AddSpan] and [Roots] again; then the correction. *)
Definition finish_counting (ord : gmap gostring gostring -> list (gostring * gostring)) (now : Z) (t : tree) : option nat :=
  let rs := roots (t_spans t) in
  let search_looks :=
    match omap (fun i => t_spans t !! i) rs with
    | s0 :: (s1 :: rest) =>
        (same_parent_looks (s_parent s0) (s0 :: s1 :: rest) +
         if all_the_same_parent s0 (s1 :: rest) then
           let f := create_fake_root s0 (s1 :: rest) in
           length (s0 :: s1 :: rest) + (add_counting (s_id f) (t_spans t)).1 + roots_looks (t_spans (add_span ord now f t))
         else 0)%nat
    | _ => 0%nat
    end in
  let '(t', rs') := find_roots ord now t in
  let looks := (roots_looks (t_spans t) + search_looks)%nat in
  match rs' with
  | [r] => option_map (fun p => looks + p.2)%nat (correct_counting (length (t_spans t')) (t_spans t') r None 0)
  | _ => Some looks
  end.
