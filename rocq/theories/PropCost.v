(** C106: parsing takes work linear in the body.  [c_ParseJsonV2] and [c_ParseJsonV1] are the parsers of the model with a count of
    bytes looked at, moved, delivered and handed over, and of calls of [Read] (see [CostModel]). *)
From Verif Require Import Base SpanModel JsonModel CodecModel CostModel CostErase CostProofs.

(** Without the count they are the parsers of the other properties. *)
Theorem C106_same : forall fuel buf pool input,
  (c_ParseJsonV2 fuel buf input).1 = ParseJsonV2 fuel buf input /\ (c_ParseJsonV1 fuel buf pool input).1 = ParseJsonV1 fuel buf pool input.
Proof. intros fuel buf pool input. split; [exact (v2_erase fuel buf input)|exact (v1_erase fuel buf pool input)]. Qed.
Print Assumptions C106_same.

(** Whatever the body is, accepted or not, in whatever pieces it comes and however the reader ends: a parse that ends has done at most
    ten units of work for a byte and two for a piece. *)
Theorem C106_v2 : forall fuel buf chunks e r w, (5 <= length buf)%nat -> c_ParseJsonV2 fuel buf (Src chunks e) = (XDone r, w) ->
  (w <= 10 * length (concat chunks) + 2 * length chunks + 7)%nat.
Proof. exact v2_cost. Qed.
Print Assumptions C106_v2.

Theorem C106_v1 : forall fuel buf pool chunks e r w, (5 <= length buf)%nat -> c_ParseJsonV1 fuel buf pool (Src chunks e) = (XDone r, w) ->
  (w <= 10 * length (concat chunks) + 2 * length chunks + 7)%nat.
Proof. exact v1_cost. Qed.
Print Assumptions C106_v1.

Definition body106 : bytes := str "[{""id"":""1"",""name"":""aA"",""x"":[1,{""y"":[null,true]}],""duration"":12}]".
Definition names106 (r : xres (option (list span)) * nat) : xres (option (list (gostring * Z))) * nat :=
  (xmap (option_map (map (fun s => (s_name s, s_dur s)))) r.1, r.2).
(** 64 bytes at once, one by one, and through a buffer of 12 bytes: 193, 256 and 198 units, where the bound allows 649, 775 and 649;
    and a body that is rejected. *)
Example C106_instance :
  length body106 = 64%nat /\
  names106 (c_ParseJsonV2 200 (replicate 64 0) (Src [body106] (EndEOF false))) = (XDone (Some [(str "aA", 12000)]), 193%nat) /\
  names106 (c_ParseJsonV2 200 (replicate 64 0) (Src (map (fun b => [b]) body106) (EndEOF true))) = (XDone (Some [(str "aA", 12000)]), 256%nat) /\
  names106 (c_ParseJsonV2 200 (replicate 12 0) (Src [body106] (EndErr false))) = (XDone (Some [(str "aA", 12000)]), 198%nat) /\
  c_ParseJsonV1 200 (replicate 12 0) [] (Src [[]; str "[{""id"":truu"; str "}"] (EndErr false)) = (XDone (None, []), 33%nat).
Proof. repeat split; vm_compute; reflexivity. Qed.
