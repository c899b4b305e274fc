(** Model of cache/lru.go (pointer-linked LRU list) and cache/cache.go (intern cache shared by goroutines). *)
From Verif Require Import Base.

(** A Go string header: the identity of the memory it points to, and its bytes. *)
Record gstr := GStr { g_ref : nat; g_val : gostring }.

(** cache/lru.go:90-93 [entry]; pointers are numbers, [None] is nil. *)
Record node := Node { n_prev : option nat; n_next : option nat; n_val : gstr }.

(** Outcome of an operation: a result, a nil dereference, or (model artefact) a loop bound exhausted. *)
Inductive lres (A : Type) := LOk (a : A) | LPanic | LHang.
Arguments LOk {A}. Arguments LPanic {A}. Arguments LHang {A}.
Definition lbind {A B} (r : lres A) (f : A -> lres B) : lres B :=
  match r with LOk a => f a | LPanic => LPanic | LHang => LHang end.
Notation "'let!' x := e 'in' k" := (lbind e (fun x => k)) (at level 200, x name, k at level 200).

(** cache/lru.go:10-18 [lruCache] with its embedded [linkedList] (95-98).  [c_heap] holds the entries,
    [c_fresh] the next unused address.  [int] counters are [Z] without wrap-around (they are bounded by the
    limit plus one string, property C15). *)
Record lru := Lru {
  c_max : Z; c_size : Z; c_count : Z;
  c_values : gmap gostring nat;
  c_head : option nat; c_tail : option nat;
  c_heap : gmap nat node; c_fresh : nat }.

(** cache/lru.go:20-23 on a 64-bit platform: entry is 8+8+16 bytes, a pointer 8, a string header 16. *)
Definition item_overhead : Z := 56.

(** cache/lru.go:25-31 [NewLRUCache]. *)
Definition new_lru (maxSize : Z) : lru := Lru maxSize 0 0 ∅ None None ∅ 0.

(** Heap accesses through a pointer. *)
Definition load (h : gmap nat node) (p : nat) : lres node :=
  match h !! p with Some n => LOk n | None => LPanic end.
Definition set_next (h : gmap nat node) (p : nat) (x : option nat) : lres (gmap nat node) :=
  let! n := load h p in LOk (<[p := Node (n_prev n) x (n_val n)]> h).
Definition set_prev (h : gmap nat node) (p : nat) (x : option nat) : lres (gmap nat node) :=
  let! n := load h p in LOk (<[p := Node x (n_next n) (n_val n)]> h).

(** The linked list part of the cache: head, tail, heap. *)
Record llist := LList { l_head : option nat; l_tail : option nat; l_heap : gmap nat node }.

(** cache/lru.go:100-132 [linkedList.PushHead]. *)
Definition push_head (l : llist) (e : nat) : lres llist :=
  (* 101-103 *)
  if decide (l_head l = Some e) then LOk l else
  (* 106-108 *)
  let! n := load (l_heap l) e in
  let tail1 := if decide (l_tail l = Some e) then n_prev n else l_tail l in
  (* 111-113 *)
  let! h1 := match n_prev n with Some p => set_next (l_heap l) p (n_next n) | None => LOk (l_heap l) end in
  (* 116-118 *)
  let! n1 := load h1 e in
  let! h2 := match n_next n1 with Some q => set_prev h1 q (n_prev n1) | None => LOk h1 end in
  (* 121-123 *)
  let! h3 := match l_head l with Some hd => set_prev h2 hd (Some e) | None => LOk h2 end in
  (* 126-128 *)
  let! h4 := set_prev h3 e None in
  let! h5 := set_next h4 e (l_head l) in
  (* 131-133 *)
  let tail2 := match tail1 with None => Some e | Some t => Some t end in
  LOk (LList (Some e) tail2 h5).

(** cache/lru.go:136-158 [linkedList.DropTail]: the dropped entry, if any. *)
Definition drop_tail (l : llist) : lres (llist * option nat) :=
  match l_tail l with
  | None => LOk (l, None)
  | Some e =>
      let! n := load (l_heap l) e in
      (* 143-149 *)
      let! ht := match n_prev n with
                 | Some p => let! h := set_next (l_heap l) p None in LOk (h, Some p)
                 | None => LOk (l_heap l, l_tail l)
                 end in
      (* 152-155 *)
      if decide (l_head l = Some e) then LOk (LList None None ht.1, Some e)
      else LOk (LList (l_head l) ht.2 ht.1, Some e)
  end.

Definition lru_list (c : lru) : llist := LList (c_head c) (c_tail c) (c_heap c).
Definition with_list (c : lru) (l : llist) : lru :=
  Lru (c_max c) (c_size c) (c_count c) (c_values c) (l_head l) (l_tail l) (l_heap l) (c_fresh c).

(** cache/lru.go:82-84 [Size] and 86-88 [Count]. *)
Definition lru_size (c : lru) : Z := c_size c + c_count c * item_overhead.
Definition lru_count (c : lru) : Z := c_count c.

(** cache/lru.go:33-43 [Get]: [None] is the empty result string. *)
Definition lru_get (c : lru) (key : gostring) : lres (lru * option gstr) :=
  match c_values c !! key with
  | Some item =>
      let! n := load (c_heap c) item in
      let! l := push_head (lru_list c) item in
      LOk (with_list c l, Some (n_val n))
  | None => LOk (c, None)
  end.

(** cache/lru.go:67-80 [ensureCacheSize]; the [continue] of line 72 re-enters the loop with nothing changed. *)
Fixpoint ensure_cache_size (fuel : nat) (c : lru) : lres lru :=
  if c_max c <=? lru_size c then
    match fuel with
    | O => LHang
    | S fuel' =>
        let! r := drop_tail (lru_list c) in
        match r.2 with
        | None => ensure_cache_size fuel' (with_list c r.1)
        | Some el =>
            let! n := load (l_heap r.1) el in
            let c' := with_list c r.1 in
            ensure_cache_size fuel'
              (Lru (c_max c') (c_size c' - Z.of_nat (length (g_val (n_val n)))) (c_count c' - 1)
                 (delete (g_val (n_val n)) (c_values c')) (c_head c') (c_tail c') (c_heap c') (c_fresh c'))
        end
    end
  else LOk c.

(** cache/lru.go:45-65 [Set].  [fuel] bounds the eviction loop. *)
Definition lru_set (fuel : nat) (c : lru) (value : gstr) : lres lru :=
  match c_values c !! g_val value with
  | Some item => let! l := push_head (lru_list c) item in LOk (with_list c l)
  | None =>
      let! c1 := ensure_cache_size fuel c in
      (* line 56: a new entry at a fresh address *)
      let e := c_fresh c1 in
      let l0 := LList (c_head c1) (c_tail c1) (<[e := Node None None value]> (c_heap c1)) in
      let! l := push_head l0 e in
      LOk (Lru (c_max c1) (c_size c1 + Z.of_nat (length (g_val value))) (c_count c1 + 1)
             (<[g_val value := e]> (c_values c1)) (l_head l) (l_tail l) (l_heap l) (S e))
  end.

(* ---------- the shared intern cache ---------- *)

(** Memory of byte arrays that strings and buffers point to; the cache; the lookups that have missed and not yet
    inserted (per goroutine: the buffer and whether to copy). *)
Record world := World {
  w_mem : gmap nat bytes; w_next : nat;
  w_bufs : gset nat;      (* arrays that callers may overwrite (pooled read buffers, parse buffers) *)
  w_cache : lru;
  w_pending : gmap nat (nat * bool) }.

(** What callers and goroutines can do.  [LookupGet]/[LookupSet] are the two critical sections of
    cache/cache.go:28-56 [lookupCache]; goroutines interleave between them. *)
Inductive wstep :=
  | NewBuf (bs : bytes)                       (* a caller allocates a buffer it will reuse *)
  | NewStr (bs : bytes)                       (* a caller allocates bytes it will not write again *)
  | Overwrite (r : nat) (bs : bytes)          (* a caller overwrites its buffer *)
  | LookupGet (tid r : nat) (copy : bool)     (* lines 28-42 *)
  | LookupSet (tid : nat).                    (* lines 44-56 *)

(** A returned lookup: the bytes asked for and the identity of the returned string's memory ([None]: the empty
    string constant of line 30). *)
Record ret := Ret { r_asked : bytes; r_result : option nat }.

(** One step; [None] if the step is not possible in this state (not enabled), else the outcome.
    Callers' discipline: only buffers are overwritten, not while one of their own lookups is running, and the
    no-copy variant (cache/cache.go:20-26; used at codec/binary.go:155 with a fresh array) is only called on
    arrays that are not written again. *)
Definition wstep_run (fuel : nat) (w : world) (s : wstep) : option (lres (world * list ret)) :=
  match s with
  | NewBuf bs =>
      Some (LOk (World (<[w_next w := bs]> (w_mem w)) (S (w_next w)) ({[w_next w]} ∪ w_bufs w) (w_cache w) (w_pending w), []))
  | NewStr bs =>
      Some (LOk (World (<[w_next w := bs]> (w_mem w)) (S (w_next w)) (w_bufs w) (w_cache w) (w_pending w), []))
  | Overwrite r bs =>
      if decide (r ∈ w_bufs w /\ map_Forall (fun _ p => p.1 <> r) (w_pending w))
      then Some (LOk (World (<[r := bs]> (w_mem w)) (w_next w) (w_bufs w) (w_cache w) (w_pending w), []))
      else None
  | LookupGet tid r copy =>
      if decide (w_pending w !! tid = None /\ (copy = true \/ r ∉ w_bufs w)) then
        match w_mem w !! r with
        | None => None
        | Some [] => Some (LOk (w, [Ret [] None]))
        | Some v =>
            Some (let! c := lru_get (w_cache w) v in
                  match c.2 with
                  | Some g => LOk (World (w_mem w) (w_next w) (w_bufs w) c.1 (w_pending w), [Ret v (Some (g_ref g))])
                  | None => LOk (World (w_mem w) (w_next w) (w_bufs w) c.1 (<[tid := (r, copy)]> (w_pending w)), [])
                  end)
        end
      else None
  | LookupSet tid =>
      match w_pending w !! tid with
      | None => None
      | Some (r, copy) =>
          match w_mem w !! r with
          | None => None
          | Some v =>
              let '(mem, next, key) :=
                if (copy : bool) then (<[w_next w := v]> (w_mem w), S (w_next w), w_next w) else (w_mem w, w_next w, r) in
              Some (let! c := lru_set fuel (w_cache w) (GStr key v) in
                    LOk (World mem next (w_bufs w) c (delete tid (w_pending w)), [Ret v (Some key)]))
          end
      end
  end.

(** A run of the system: disabled steps are not runs. [LHang] cannot be continued. *)
Fixpoint wrun (fuel : nat) (w : world) (l : list wstep) : option (lres (world * list ret)) :=
  match l with
  | [] => Some (LOk (w, []))
  | s :: l' =>
      match wstep_run fuel w s with
      | None => None
      | Some LPanic => Some LPanic
      | Some LHang => Some LHang
      | Some (LOk (w1, o1)) =>
          match wrun fuel w1 l' with
          | Some (LOk (w2, o2)) => Some (LOk (w2, o1 ++ o2))
          | x => x
          end
      end
  end.

Definition new_world (limit : Z) : world := World ∅ 0 ∅ (new_lru limit) ∅.
