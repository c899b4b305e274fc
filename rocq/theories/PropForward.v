(** Properties C46-C48: forwarding to the targets and the ring of recent spans. *)
From Verif Require Import Base SpanModel ForwardModel ForwardSpec ForwardProofs RingModel RingSpec RingProofs.

(** C46: the traces have arrays of their own; then forwarding does not panic, every target gets the converted traces in
    order, and reads them right even after everything was forwarded (the results reuse the arrays of the input). *)
Theorem C46_forward :
  forall (S : Type) (conv : converter S) targets src s h, NoDup (map sl_arr src) -> Forall (slice_ok h) src ->
  exists s1 h1 outs ts, forward conv targets s h src = Some (s1, h1, outs) /\ length outs = targets /\
    converts_all conv s (map (read h) src) s1 ts /\ Forall (fun out => map sl_arr out = map sl_arr src /\ map (read h1) out = ts) outs /\
    length h1 = length h /\ (forall b, b ∉ map sl_arr src -> h1 !! b = h !! b).
Proof. exact @forward_ok. Qed.
Print Assumptions C46_forward.

(** C46: the specification determines the result. *)
Theorem C46_determined :
  forall (S : Type) (conv : converter S) s l s1 l1, converts conv s l s1 l1 ->
  forall s2 l2, converts conv s l s2 l2 -> s1 = s2 /\ l1 = l2.
Proof. exact @converts_det. Qed.
Print Assumptions C46_determined.

(** A converter that counts, fails for name "f", and gives id 0 to name "z". *)
Definition counting : converter Z := fun n x =>
  (n + 1, (if decide (s_name x = str "z") then new_span [] 1 0 0 else set_dur n x, bool_decide (s_name x = str "f"))).
Definition named (name : gostring) (id : Z) : span := new_span name 7 id id.

Example C46_instance :
  let h := [[named [] 1; named (str "f") 2; named (str "z") 3; named [] 4]; [named [] 9]; [named (str "f") 5; named [] 6; named [] 8]] in
  let src := [Slice 0 4; Slice 2 2] in
  match forward counting 2 10 h src with
  | Some (s1, h1, outs) => s1 = 16 /\ outs = [[Slice 0 2; Slice 2 1]; [Slice 0 2; Slice 2 1]] /\
      map (read h1) [Slice 0 2; Slice 2 1] = [[set_dur 10 (named [] 1); set_dur 13 (named [] 4)]; [set_dur 15 (named [] 6)]]
  | None => False end.
Proof. by vm_compute. Qed.

(** C47: up to rotation the endpoint shows the most recent spans; what was written since the position last was zero
    comes first. *)
Theorem C47_ring_recent :
  forall cap ts, (0 < cap)%nat ->
  exists r, read_from (new_ring cap) ts = Some r /\
  exists older newer, lastn cap (concat ts) = older ++ newer /\ length newer = (length (concat ts) mod cap)%nat /\
    to_slice r = visible newer ++ visible older.
Proof. exact ring_recent. Qed.
Print Assumptions C47_ring_recent.

Example C47_instance :
  match read_from (new_ring 3) [[named [] 1; named [] 2]; []; [named [] 3; named [] 4]] with
  | Some r => map s_id (to_slice r) = [4; 2; 3] | None => False end.
Proof. by vm_compute. Qed.

(** C48 is false: with the capacity that the program uses, the order is wrong after 2049 spans. *)
Theorem C48_ring_order_refuted :
  exists ts r, read_from (new_ring 2048) ts = Some r /\ to_slice r <> visible (lastn 2048 (concat ts)).
Proof. exact ring_out_of_order. Qed.
Print Assumptions C48_ring_order_refuted.

(** C48, guarded. *)
Theorem C48_ring_order_guarded :
  forall cap ts, (0 < cap)%nat -> (length (concat ts) <= cap)%nat \/ (length (concat ts) mod cap = 0)%nat ->
  exists r, read_from (new_ring cap) ts = Some r /\ to_slice r = visible (lastn cap (concat ts)).
Proof. exact ring_in_order. Qed.
Print Assumptions C48_ring_order_guarded.

Example C48_instance :
  match read_from (new_ring 3) [[named [] 1; named [] 2]; [named [] 3]] with
  | Some r => map s_id (to_slice r) = [1; 2; 3] | None => False end.
Proof. by vm_compute. Qed.
