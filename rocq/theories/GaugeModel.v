(** Model of the counters of cache/cache.go:14, 28-56 and of the gauges of cache/cache.go:71-89
    ([RegisterCacheMetrics]). *)
From Verif Require Import Base LruModel.

(** The cache with callers (LruModel), the two counters, the goroutines that have looked a string up but not yet counted
    it ([true]: it was found), and the goroutines that are between the two swaps of a reading, with what they got. *)
Record gworld := GWorld {
  g_world : world; g_hit : Z; g_miss : Z;
  g_due : gmap nat bool;
  g_reading : gmap nat Z }.

Definition new_gworld (limit : Z) : gworld := GWorld (new_world limit) 0 0 ∅ ∅.

(** What can happen.  Each is one atomic operation of a goroutine: [GDo] a step of the cache's callers (LruModel),
    [GCount] the [atomic.AddUint64] of line 41 or 51, [GSwapHit]/[GSwapMiss] lines 73 and 74, [GReadSize] and
    [GReadCount] lines 78-82 and 84-88 (they hold the lock). *)
Inductive gstep :=
  | GDo (s : wstep) | GCount (tid : nat)
  | GSwapHit (rid : nat) | GSwapMiss (rid : nat)
  | GReadSize | GReadCount.

(** The record of a run.  A rate is recorded by the two numbers that line 75 divides: [hits / (hits + misses)] as
    floating point numbers; floating point division is not modelled. *)
Inductive gentry :=
  | EFound | EMissed                 (* a lookup of a string that is not empty found it or not *)
  | ECounted (hit : bool)            (* it was counted *)
  | ESwapped (hits : Z)              (* a reading of the rate begins *)
  | ERate (hits misses : Z)          (* what it reports *)
  | ESize (n : Z) | ECount (n : Z).  (* the other gauges *)

(** The entry for a lookup: line 33-40.  The empty string is not counted (line 29). *)
Definition looked_up (w : world) (r : nat) (o : list ret) : option bool :=
  match w_mem w !! r with
  | Some (_ :: _) => Some (match o with [] => false | _ => true end)
  | _ => None
  end.

(** One step; [None]: not possible in this state; [Some None]: it does not return (never, see C12). *)
Definition gstep_run (fuel : nat) (g : gworld) (s : gstep) : option (option (gworld * list gentry)) :=
  match s with
  | GDo s =>
      let allowed := match s with LookupGet tid _ _ | LookupSet tid => bool_decide (g_due g !! tid = None) | _ => true end in
      if allowed then
        match wstep_run fuel (g_world g) s with
        | None => None
        | Some (LOk (w, o)) =>
            match s with
            | LookupGet tid r _ =>
                match looked_up (g_world g) r o with
                | Some b => Some (Some (GWorld w (g_hit g) (g_miss g) (<[tid := b]> (g_due g)) (g_reading g), [if b then EFound else EMissed]))
                | None => Some (Some (GWorld w (g_hit g) (g_miss g) (g_due g) (g_reading g), []))
                end
            | _ => Some (Some (GWorld w (g_hit g) (g_miss g) (g_due g) (g_reading g), []))
            end
        | Some _ => Some None
        end
      else None
  | GCount tid =>
      match g_due g !! tid with
      | None => None
      | Some true => Some (Some (GWorld (g_world g) (u64 (g_hit g + 1)) (g_miss g) (delete tid (g_due g)) (g_reading g), [ECounted true]))
      | Some false => Some (Some (GWorld (g_world g) (g_hit g) (u64 (g_miss g + 1)) (delete tid (g_due g)) (g_reading g), [ECounted false]))
      end
  | GSwapHit rid =>
      if decide (g_reading g !! rid = None)
      then Some (Some (GWorld (g_world g) 0 (g_miss g) (g_due g) (<[rid := g_hit g]> (g_reading g)), [ESwapped (g_hit g)]))
      else None
  | GSwapMiss rid =>
      match g_reading g !! rid with
      | None => None
      | Some h => Some (Some (GWorld (g_world g) (g_hit g) 0 (g_due g) (delete rid (g_reading g)), [ERate h (g_miss g)]))
      end
  | GReadSize => Some (Some (g, [ESize (lru_size (w_cache (g_world g)))]))
  | GReadCount => Some (Some (g, [ECount (lru_count (w_cache (g_world g)))]))
  end.

Fixpoint grun (fuel : nat) (g : gworld) (l : list gstep) : option (option (gworld * list gentry)) :=
  match l with
  | [] => Some (Some (g, []))
  | s :: l' =>
      match gstep_run fuel g s with
      | None => None
      | Some None => Some None
      | Some (Some (g1, o1)) =>
          match grun fuel g1 l' with
          | Some (Some (g2, o2)) => Some (Some (g2, o1 ++ o2))
          | x => x
          end
      end
  end.
