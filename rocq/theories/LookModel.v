(** Small methods that look into a trace, a linked list or an id and change nothing. *)
From Verif Require Import Base IdModel SpanModel TreeModel LruModel.

(* ---------- traces ---------- *)

(** correct.go:99-108 [tree.ByParent]; a pointer to a span is its index. *)
Definition by_parent (t : tree) : gmap Z (list nat) :=
  foldl (fun m p => <[s_parent p.2 := default [] (m !! s_parent p.2) ++ [p.1]]> m) ∅ (imap pair (t_spans t)).
(** correct.go:110-112 [tree.GetSpan]. *)
Definition tree_get_span (t : tree) (id : Z) : option nat := get_span_ref id (t_spans t).
(** correct.go:115-117 [tree.Root]. *)
Definition tree_root (t : tree) : option nat := get_span_ref (t_id t) (t_spans t).

(* ---------- linked lists ---------- *)

(** cache/lru.go:160-170 [linkedList.Count]: the loop; [fuel] bounds it. *)
Fixpoint count_loop (fuel : nat) (h : gmap nat node) (p : option nat) (count : Z) : lres Z :=
  match p with
  | None => LOk count
  | Some p =>
      match fuel with
      | O => LHang
      | S fuel => let! n := load h p in count_loop fuel h (n_next n) (count + 1)
      end
  end.
Definition list_count (fuel : nat) (l : llist) : lres Z := count_loop fuel (l_heap l) (l_head l) 0.

(* ---------- ids ---------- *)

(** proxy/id.go:27-33 [OrZero], 35-41 [Or]; a nil pointer is [None]. *)
Definition id_or_zero (id : option Z) : Z := match id with Some v => v | None => 0 end.
Definition id_or (id : option Z) (other : Z) : Z := match id with Some v => v | None => other end.
(** id.go:15-17 [Int64] and 19-21 [Uint64]. *)
Definition id_int64 (id : option Z) : Z := id_or_zero id.
Definition id_uint64 (id : option Z) : Z := u64 (id_or_zero id).
(** id.go:43-50 [Uint64OrNil]. *)
Definition id_uint64_or_nil (id : option Z) : option Z :=
  match id with
  | None => None
  | Some v => if v =? 0 then None else Some (u64 v)
  end.
