(** Model of codec/binary.go: the binary span codec used on Kafka. *)
From Verif Require Import Base SpanModel.

(** Result of a decoding function: a value and the unread rest of the [bytes.Reader], or an error.
    [EEof]: [io.EOF]/[io.ErrUnexpectedEOF]; [ELength]: the error of codec/binary.go:142;
    [EFuel]: model artefact, a loop bound was exhausted (proved unreachable). *)
Inductive derr := EEof | ELength | EFuel.
Inductive dres (A : Type) := DOk (a : A) (rest : bytes) | DErr (e : derr).
Arguments DOk {A}. Arguments DErr {A}.

Definition dbind {A B} (r : dres A) (f : A -> bytes -> dres B) : dres B :=
  match r with DOk a rest => f a rest | DErr e => DErr e end.
Notation "'let?' ( x , r ) := e 'in' k" := (dbind e (fun x r => k)) (at level 200, x name, r name, k at level 200).

(** codec/binary.go:14-25: the loop of [readLong]; [v] and [shift] are the Go variables.  [uint64(b&127) << shift]
    wraps to uint64 (a shift of 64 or more gives 0).  [shift] itself (a Go uint) cannot wrap for any input that
    fits in memory and is left unbounded. *)
Fixpoint read_long_loop (shift v : Z) (r : bytes) : dres Z :=
  match r with
  | [] => DErr EEof
  | b :: r' =>
      let v' := Z.lor v (u64 (Z.shiftl (Z.land b 127) shift)) in
      if Z.land b 128 =? 0 then DOk v' r' else read_long_loop (shift + 7) v' r'
  end.

(** codec/binary.go:27: [int64(v>>1) ^ -int64(v&1)]. *)
Definition unzigzag (v : Z) : Z := Z.lxor (Z.shiftr v 1) (- (Z.land v 1)).

(** codec/binary.go:13-29 [readLong]. *)
Definition read_long (r : bytes) : dres Z :=
  let? (v, r1) := read_long_loop 0 0 r in DOk (unzigzag v) r1.

(** codec/binary.go:133-172 [readString].  Both branches (pooled buffer or fresh buffer) read [len] bytes with
    [io.ReadFull] and intern them; interning is the identity on contents (property C12), so the two branches
    return the same string.  [math.MaxInt32] = 2147483647. *)
Definition read_string (r : bytes) : dres gostring :=
  let? (len, r1) := read_long r in
  if (len <? 0) || (2147483647 <? len) then DErr ELength
  else if len =? 0 then DOk [] r1
  else if (Z.of_nat (length r1) <? len) then DErr EEof
  else DOk (take (Z.to_nat len) r1) (drop (Z.to_nat len) r1).

(** codec/binary.go:48-58: the inner loop of [readMapString], [i] counting up to [blkSize]. *)
Fixpoint read_entries (fuel : nat) (i blkSize : Z) (m : gmap gostring gostring) (r : bytes)
    : dres (gmap gostring gostring) :=
  match fuel with
  | O => DErr EFuel
  | S fuel' =>
      if i <? blkSize then
        let? (key, r1) := read_string r in
        let? (val, r2) := read_string r1 in
        read_entries fuel' (i + 1) blkSize (<[key := val]> m) r2
      else DOk m r
  end.

(** codec/binary.go:33-59: the outer loop of [readMapString].  [-blkSize] wraps for the minimum int64. *)
Fixpoint read_blocks (fuel : nat) (m : gmap gostring gostring) (r : bytes) : dres (gmap gostring gostring) :=
  match fuel with
  | O => DErr EFuel
  | S fuel' =>
      let? (blkSize, r1) := read_long r in
      if blkSize =? 0 then DOk m r1
      else if blkSize <? 0 then
        let? (skipped, r2) := read_long r1 in
        let? (m', r3) := read_entries (S (length r2)) 0 (wrap64 (- blkSize)) m r2 in
        read_blocks fuel' m' r3
      else
        let? (m', r2) := read_entries (S (length r1)) 0 blkSize m r1 in
        read_blocks fuel' m' r2
  end.

(** codec/binary.go:31-61 [readMapString].  The fuel is one more than the number of remaining bytes: every
    iteration reads at least one byte. *)
Definition read_map_string (r : bytes) : dres (gmap gostring gostring) := read_blocks (S (length r)) ∅ r.

(** codec/binary.go:78-131 [BinaryDecode].  [readId], [readTimestamp] and [readDuration] (lines 63-76) are
    [readLong] with a type conversion between int64 types.  The partially filled span that Go returns together
    with an error is not modelled: the only caller (balance/receiver.go:83-87) ignores it. *)
Definition binary_decode (r : bytes) : dres span :=
  let? (id, r) := read_long r in
  let? (trace, r) := read_long r in
  let? (parent, r) := read_long r in
  let? (name, r) := read_string r in
  let? (service, r) := read_string r in
  let? (ts, r) := read_long r in
  let? (dur, r) := read_long r in
  let? (cs, r) := read_long r in
  let? (cr, r) := read_long r in
  let? (ss, r) := read_long r in
  let? (sr, r) := read_long r in
  let? (tags, r) := read_map_string r in
  DOk (Span id parent trace name service ts dur tags (Timings cs cr ss sr)) r.

(** codec/binary.go:187-197: the loop of [encodeInt].  [None]: model artefact, loop bound exhausted (proved
    unreachable for uint64 with the bound 10). *)
Fixpoint encode_int_loop (fuel : nat) (encoded : Z) : option bytes :=
  if 0 <? encoded then
    match fuel with
    | O => None
    | S fuel' =>
        let b := Z.land encoded 127 in
        let encoded' := Z.shiftr encoded 7 in
        let b' := if negb (encoded' =? 0) then Z.lor b 128 else b in
        match encode_int_loop fuel' encoded' with
        | Some bs => Some (b' :: bs)
        | None => None
        end
    end
  else Some [].

(** codec/binary.go:180-201 [encodeInt]; writing to a [bytes.Buffer] never fails. *)
Definition encode_int (encoded : Z) : option bytes :=
  if encoded =? 0 then Some [0] else encode_int_loop 10 encoded.

(** codec/binary.go:176: [uint64((r << 1) ^ (r >> 63))] on int64. *)
Definition zigzag (r : Z) : Z := u64 (Z.lxor (wrap64 (Z.shiftl r 1)) (Z.shiftr r 63)).

(** codec/binary.go:174-178 [writeLong]: the bytes appended to the buffer. *)
Definition write_long (r : Z) : option bytes := encode_int (zigzag r).

Definition oapp (a b : option bytes) : option bytes :=
  match a, b with Some x, Some y => Some (x ++ y) | _, _ => None end.
Infix "+++" := oapp (at level 60, right associativity).

(** codec/binary.go:275-283 [writeString]. *)
Definition write_string (s : gostring) : option bytes :=
  write_long (Z.of_nat (length s)) +++ Some s.

(** codec/binary.go:208-217: the loop of [writeMapString] over the entries in iteration order. *)
Fixpoint write_entries (kvs : list (gostring * gostring)) : option bytes :=
  match kvs with
  | [] => Some []
  | (k, e) :: kvs' => write_string k +++ write_string e +++ write_entries kvs'
  end.

(** codec/binary.go:203-219 [writeMapString]; [order] lists the map's entries in iteration order. *)
Definition write_map_string (order : list (gostring * gostring)) : option bytes :=
  match order with
  | [] => write_long 0
  | _ => write_long (Z.of_nat (length order)) +++ write_entries order +++ write_long 0
  end.

(** codec/binary.go:221-273 [BinaryEncode], with the iteration order of [r.Tags] given by [order]. *)
Definition binary_encode (order : list (gostring * gostring)) (r : span) : option bytes :=
  write_long (s_id r) +++ write_long (s_trace r) +++ write_long (s_parent r) +++
  write_string (s_name r) +++ write_string (s_service r) +++
  write_long (s_ts r) +++ write_long (s_dur r) +++
  write_long (tCS (s_timings r)) +++ write_long (tCR (s_timings r)) +++
  write_long (tSS (s_timings r)) +++ write_long (tSR (s_timings r)) +++
  write_map_string order.

(** The orders in which Go may iterate over a map: any permutation of its entries. *)
Definition iteration_order (order : list (gostring * gostring)) (m : gmap gostring gostring) : Prop :=
  order ≡ₚ map_to_list m.
