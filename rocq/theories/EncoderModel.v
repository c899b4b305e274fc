(** Model of balance/encoder.go (Kafka message construction in pooled slabs), balance/sender.go and
    balance/receiver.go. *)
From Verif Require Import Base SpanModel BinaryModel.

(* ---------- memory ---------- *)

(** Arrays are numbered; the Go garbage collector never reuses a reachable array, so an array number is never
    reused. *)
Notation heap A := (list (list A)).

(** A Go slice header: array, offset, length, capacity. *)
Record slice := Slice { sl_arr : nat; sl_off : nat; sl_len : nat; sl_cap : nat }.
Definition nil_slice : slice := Slice 0 0 0 0.

(** Contents of a slice. *)
Definition slice_get {A} (h : heap A) (s : slice) : list A :=
  take (sl_len s) (drop (sl_off s) (default [] (h !! sl_arr s))).

(** Store [xs] at position [off] of array [a]; [None] is an out-of-range panic. *)
Definition store {A} (h : heap A) (a off : nat) (xs : list A) : option (heap A) :=
  match h !! a with
  | Some arr =>
      if (off + length xs <=? length arr)%nat
      then Some (<[a := take off arr ++ xs ++ drop (off + length xs) arr]> h)
      else None
  | None => None
  end.

(** [make([]T, n)] *)
Definition alloc {A} (h : heap A) (zero : A) (n : nat) : heap A * slice :=
  (h ++ [replicate n zero], Slice (length h) 0 n n).

(** [s[n:]] *)
Definition slice_from (s : slice) (n : nat) : slice :=
  Slice (sl_arr s) (sl_off s + n) (sl_len s - n) (sl_cap s - n).
(** [s[:n]] *)
Definition slice_to (s : slice) (n : nat) : slice := Slice (sl_arr s) (sl_off s) n (sl_cap s).
(** [s[0:0:n]] *)
Definition slice_empty_cap (s : slice) (n : nat) : slice := Slice (sl_arr s) (sl_off s) 0 n.

(* ---------- bytes.Buffer ---------- *)

(** [bytes.Buffer.Grow] of Go 1.15 on a buffer that is never read from: stay in place while the capacity suffices,
    otherwise copy to a new array of size [2*cap+n]. *)
Definition buf_grow (h : heap Z) (b : slice) (n : nat) : heap Z * slice :=
  if (sl_len b + n <=? sl_cap b)%nat then (h, b)
  else
    let c := (2 * sl_cap b + n)%nat in
    (h ++ [slice_get h b ++ replicate (c - sl_len b) 0], Slice (length h) 0 (sl_len b) c).

(** [Write]/[WriteByte]/[WriteString]: grow, then copy behind the current contents. *)
Definition buf_write (h : heap Z) (b : slice) (bs : bytes) : option (heap Z * slice) :=
  let '(h1, b1) := buf_grow h b (length bs) in
  match store h1 (sl_arr b1) (sl_off b1 + sl_len b1) bs with
  | Some h2 => Some (h2, Slice (sl_arr b1) (sl_off b1) (sl_len b1 + length bs) (sl_cap b1))
  | None => None
  end.

(** What codec/binary.go does to the buffer: [Grow] and writes. *)
Inductive wop := WGrow (n : nat) | WWrite (bs : bytes).

(** codec/binary.go:174-201: [writeLong] is one [Grow(10)] and one [WriteByte] per byte. *)
Definition long_ops (r : Z) : option (list wop) :=
  match write_long r with
  | Some bs => Some (WGrow 10 :: map (fun b => WWrite [b]) bs)
  | None => None
  end.

(** codec/binary.go:275-283 *)
Definition string_ops (s : gostring) : option (list wop) :=
  match long_ops (Z.of_nat (length s)) with Some o => Some (o ++ [WWrite s]) | None => None end.

(** Concatenation of partial operation lists. *)
Fixpoint cat_ops (l : list (option (list wop))) : option (list wop) :=
  match l with
  | [] => Some []
  | o :: l' => match o, cat_ops l' with Some a, Some b => Some (a ++ b) | _, _ => None end
  end.

(** codec/binary.go:203-219 *)
Definition map_ops (order : list (gostring * gostring)) : option (list wop) :=
  match order with
  | [] => long_ops 0
  | _ => cat_ops ([long_ops (Z.of_nat (length order))] ++
                  concat (map (fun kv => [string_ops kv.1; string_ops kv.2]) order) ++ [long_ops 0])
  end.

(** codec/binary.go:221-273 [BinaryEncode] as operations on the buffer. *)
Definition span_ops (order : list (gostring * gostring)) (r : span) : option (list wop) :=
  cat_ops [long_ops (s_id r); long_ops (s_trace r); long_ops (s_parent r);
           string_ops (s_name r); string_ops (s_service r);
           long_ops (s_ts r); long_ops (s_dur r);
           long_ops (tCS (s_timings r)); long_ops (tCR (s_timings r));
           long_ops (tSS (s_timings r)); long_ops (tSR (s_timings r)); map_ops order].

Fixpoint run_ops (h : heap Z) (b : slice) (ops : list wop) : option (heap Z * slice) :=
  match ops with
  | [] => Some (h, b)
  | WGrow n :: ops' => let '(h1, b1) := buf_grow h b n in run_ops h1 b1 ops'
  | WWrite bs :: ops' =>
      match buf_write h b bs with Some (h1, b1) => run_ops h1 b1 ops' | None => None end
  end.

(* ---------- the encoder ---------- *)

(** balance/encoder.go:28-31: [slices] is itself a slice of an array of slice headers. *)
Record encoder := Encoder { e_buf : slice; e_slices : slice }.
(** balance/encoder.go:15-19: a new pool entry is a zero encoder. *)
Definition new_encoder : encoder := Encoder nil_slice nil_slice.

(** The pool and all memory.  [m_cells] are the arrays of slice headers made at line 43. *)
Record mem := Mem { m_heap : heap Z; m_cells : heap slice; m_encs : list encoder }.

(** sarama.ProducerMessage: key and value are pointers to slice headers ([ptrSliceEncoder]): array and index. *)
Record message := Message { msg_key : nat * nat; msg_value : nat * nat }.

Definition expected_max_span_size : nat := Z.to_nat 512.
Definition slab_size : nat := Z.to_nat 32768.
Definition slices_size : nat := Z.to_nat 1024.

(** [binary.LittleEndian.PutUint64(_, span.Trace.Uint64())]; [>>] on uint64, truncation to a byte. *)
Definition le_bytes (v : Z) : bytes := map (fun k => Z.land (Z.shiftr v k) 255) [0; 8; 16; 24; 32; 40; 48; 56].

(** balance/encoder.go:35-77 [encoder.Encode] (metrics and topic omitted). [None] is a panic. *)
Definition encoder_encode (h : heap Z) (cells : heap slice) (enc : encoder)
    (order : list (gostring * gostring)) (sp : span)
    : option (heap Z * heap slice * encoder * message) :=
  (* lines 37-39 *)
  let '(h, buf) := if (sl_len (e_buf enc) <? 8 + expected_max_span_size)%nat
                   then alloc h 0 slab_size else (h, e_buf enc) in
  (* lines 42-44 *)
  let '(cells, slices) := if (sl_len (e_slices enc) <? 2)%nat
                          then alloc cells nil_slice slices_size else (cells, e_slices enc) in
  (* lines 48-50 *)
  let keyp := (sl_arr slices, sl_off slices) in
  let valp := (sl_arr slices, S (sl_off slices)) in
  let slices := slice_from slices 2 in
  (* lines 53-54 *)
  let key := slice_to buf 8 in
  let buf := slice_from buf 8 in
  match store cells keyp.1 keyp.2 [key] with
  | None => None
  | Some cells =>
  match store h (sl_arr key) (sl_off key) (le_bytes (u64 (s_trace sp))) with
  | None => None
  | Some h =>
  (* lines 57-58 *)
  match span_ops order sp with
  | None => None
  | Some ops =>
  match run_ops h (slice_empty_cap buf expected_max_span_size) ops with
  | None => None
  | Some (h, b) =>
  (* lines 61-63: comparing the addresses of the first bytes; indexing an empty slice panics *)
  if (sl_len b =? 0)%nat then None else
  let buf := if (sl_arr b =? sl_arr buf)%nat && (sl_off b =? sl_off buf)%nat
             then slice_from buf (sl_len b) else buf in
  (* line 70 *)
  match store cells valp.1 valp.2 [b] with
  | None => None
  | Some cells => Some (h, cells, Encoder buf slices, Message keyp valp)
  end end end end end.

(** balance/encoder.go:21-26 [makeProducerMessage]: the pool hands out some idle encoder (number [i]) exclusively,
    or a new one ([i] = number of existing encoders). [None] also if [i] is out of range. *)
Definition make_message (m : mem) (i : nat) (order : list (gostring * gostring)) (sp : span) : option (mem * message) :=
  let encs := if (i =? length (m_encs m))%nat then m_encs m ++ [new_encoder] else m_encs m in
  match encs !! i with
  | None => None
  | Some enc =>
      match encoder_encode (m_heap m) (m_cells m) enc order sp with
      | None => None
      | Some (h, cells, enc', msg) => Some (Mem h cells (<[i := enc']> encs), msg)
      end
  end.

(** One span to send: pool choice, tag iteration order, span. *)
Record send := Send { sn_enc : nat; sn_order : list (gostring * gostring); sn_span : span }.

(** balance/sender.go:26-34 [Send]: one message per span, in order. *)
Fixpoint send_all (m : mem) (l : list send) : option (mem * list message) :=
  match l with
  | [] => Some (m, [])
  | s :: l' =>
      match make_message m (sn_enc s) (sn_order s) (sn_span s) with
      | None => None
      | Some (m1, msg) =>
          match send_all m1 l' with
          | None => None
          | Some (m2, msgs) => Some (m2, msg :: msgs)
          end
      end
  end.

Definition empty_mem : mem := Mem [] [] [].

(** balance/encoder.go:79-87 [ptrSliceEncoder.Encode]: what Kafka reads through a message pointer. *)
Definition cell_get (m : mem) (p : nat * nat) : bytes :=
  match m_cells m !! p.1 with
  | Some arr => match arr !! p.2 with Some s => slice_get (m_heap m) s | None => [] end
  | None => []
  end.

(* ---------- the consumer ---------- *)

(** Effects of the consumer: a callback invocation, or marking the message with this index. *)
Inductive cevent := Callback (s : span) | Mark (i : nat).

(** balance/receiver.go:75-95 [ConsumeClaim], messages numbered from [i]. *)
Fixpoint consume_from (i : nat) (msgs : list bytes) : list cevent :=
  match msgs with
  | [] => []
  | v :: msgs' =>
      match binary_decode v with
      | DErr _ => consume_from (S i) msgs'
      | DOk s _ => Callback s :: Mark i :: consume_from (S i) msgs'
      end
  end.
Definition consume (msgs : list bytes) : list cevent := consume_from 0 msgs.
