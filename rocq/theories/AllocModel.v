(** Model of the memory that codec/binary.go requests while it decodes a message: the decoder of BinaryModel.v, which
    also records the sizes of the buffers allocated by [make] in [readString] (codec/binary.go:150), in order.  The
    buffers of at most 8192 bytes come from the pool (159) and are put back; they are not recorded. *)
From Verif Require Import Base SpanModel BinaryModel.

(** codec/json.go:11 [pooledBufferSliceLength]. *)
Definition pooled_buffer_length : Z := 8192.

Definition mres (A : Type) : Type := list Z * dres A.
Definition mlift {A} (r : dres A) : mres A := ([], r).
Definition mbind {A B} (x : mres A) (f : A -> bytes -> mres B) : mres B :=
  match x with
  | (l, DOk a rest) => (l ++ (f a rest).1, (f a rest).2)
  | (l, DErr e) => (l, DErr e)
  end.
Notation "'let!' ( x , r ) := e 'in' k" := (mbind e (fun x r => k)) (at level 200, x name, r name, k at level 200).

(** codec/binary.go:133-172 [readString]: the buffer is allocated before anything is read into it (150-151). *)
Definition m_read_string (r : bytes) : mres gostring :=
  let! (len, r1) := mlift (read_long r) in
  if (len <? 0) || (2147483647 <? len) then mlift (DErr ELength)
  else if len =? 0 then mlift (DOk [] r1)
  else (if pooled_buffer_length <? len then [len] else [],
        if Z.of_nat (length r1) <? len then DErr EEof
        else DOk (take (Z.to_nat len) r1) (drop (Z.to_nat len) r1)).

(** codec/binary.go:48-58. *)
Fixpoint m_read_entries (fuel : nat) (i blkSize : Z) (m : gmap gostring gostring) (r : bytes) : mres (gmap gostring gostring) :=
  match fuel with
  | O => mlift (DErr EFuel)
  | S fuel' =>
      if i <? blkSize then
        let! (key, r1) := m_read_string r in
        let! (val, r2) := m_read_string r1 in
        m_read_entries fuel' (i + 1) blkSize (<[key := val]> m) r2
      else mlift (DOk m r)
  end.

(** codec/binary.go:33-59. *)
Fixpoint m_read_blocks (fuel : nat) (m : gmap gostring gostring) (r : bytes) : mres (gmap gostring gostring) :=
  match fuel with
  | O => mlift (DErr EFuel)
  | S fuel' =>
      let! (blkSize, r1) := mlift (read_long r) in
      if blkSize =? 0 then mlift (DOk m r1)
      else if blkSize <? 0 then
        let! (skipped, r2) := mlift (read_long r1) in
        let! (m', r3) := m_read_entries (S (length r2)) 0 (wrap64 (- blkSize)) m r2 in
        m_read_blocks fuel' m' r3
      else
        let! (m', r2) := m_read_entries (S (length r1)) 0 blkSize m r1 in
        m_read_blocks fuel' m' r2
  end.

(** codec/binary.go:78-131 [BinaryDecode]. *)
Definition m_binary_decode (r : bytes) : mres span :=
  let! (id, r) := mlift (read_long r) in
  let! (trace, r) := mlift (read_long r) in
  let! (parent, r) := mlift (read_long r) in
  let! (name, r) := m_read_string r in
  let! (service, r) := m_read_string r in
  let! (ts, r) := mlift (read_long r) in
  let! (dur, r) := mlift (read_long r) in
  let! (cs, r) := mlift (read_long r) in
  let! (cr, r) := mlift (read_long r) in
  let! (ss, r) := mlift (read_long r) in
  let! (sr, r) := mlift (read_long r) in
  let! (tags, r) := m_read_blocks (S (length r)) ∅ r in
  mlift (DOk (Span id parent trace name service ts dur tags (Timings cs cr ss sr)) r).

(** The sizes of the buffers that decoding [msg] requests. *)
Definition requested (msg : bytes) : list Z := (m_binary_decode msg).1.
