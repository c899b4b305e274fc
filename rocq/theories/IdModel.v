(** Model of proxy/id.go: span and trace identifiers. *)
From Verif Require Import Base.

(** [hextable] of Go's encoding/hex: "0123456789abcdef". *)
Definition hextable : list Z := str "0123456789abcdef".

(** [hex.Encode] (Go standard library): two table lookups per byte, [v>>4] then [v&0x0f].
    The default of [nth] is never used: the index is below 16 for every byte. *)
Definition hex_encode (bs : bytes) : bytes :=
  concat (map (fun v => [nth (Z.to_nat (Z.shiftr v 4)) hextable 0;
                         nth (Z.to_nat (Z.land v 15)) hextable 0]) bs).

(** The [8]byte array built by proxy/id.go:53-62 (and identically 73-82):
    [byte((id >> k) & 0xff)] for k = 56, 48, ..., 0; [>>] is the arithmetic shift of int64. *)
Definition id_be_bytes (id : Z) : bytes :=
  map (fun k => Z.land (Z.shiftr id k) 255) [56; 48; 40; 32; 24; 16; 8; 0].

(** proxy/id.go:52-68 [Id.String]. *)
Definition id_string (id : Z) : bytes := hex_encode (id_be_bytes id).

(** proxy/id.go:70-92 [Id.MarshalJSON]: the hex text between two quote characters. *)
Definition id_marshal_json (id : Z) : bytes := 34 :: hex_encode (id_be_bytes id) ++ [34].

(** proxy/id.go:114-129: one iteration of the loop of [ParseId].  In Go, [|] and [+] have the same precedence
    and associate to the left, so lines 121 and 124 are [((result << 4) | Id(c-'a')) + 10].
    [None] is the error of line 127. *)
Definition parse_id_step (result c : Z) : option Z :=
  if (48 <=? c) && (c <=? 57) then
    Some (Z.lor (wrap64 (Z.shiftl result 4)) (c - 48))
  else if (97 <=? c) && (c <=? 102) then
    Some (wrap64 (Z.lor (wrap64 (Z.shiftl result 4)) (c - 97) + 10))
  else if (65 <=? c) && (c <=? 70) then
    Some (wrap64 (Z.lor (wrap64 (Z.shiftl result 4)) (c - 65) + 10))
  else None.

(** proxy/id.go:114-131: the loop of [ParseId]. *)
Fixpoint parse_id_loop (result : Z) (bs : bytes) : option Z :=
  match bs with
  | [] => Some result
  | c :: bs' =>
      match parse_id_step result c with
      | Some r => parse_id_loop r bs'
      | None => None
      end
  end.

(** proxy/id.go:109-132 [ParseId].  [None] stands for the two error returns (lines 111 and 127). *)
Definition parse_id (bs : bytes) : option Z :=
  if (16 <? length bs)%nat then None else parse_id_loop 0 bs.

(** proxy/id.go:94-107 [Id.UnmarshalJSON]: the new value of the receiver, or [None] for an error. *)
Definition id_unmarshal_json (bs : bytes) : option Z :=
  if (length bs <? 2)%nat || negb (bool_decide (head bs = Some 34)) || negb (bool_decide (last bs = Some 34))
  then None
  else parse_id (take (length bs - 2) (drop 1 bs)).

(** proxy/id.go:23-25 [Id.IsUnknown]. *)
Definition id_is_unknown (id : Z) : bool := id =? 0.

(** proxy/id.go:19-21 [Id.Uint64] on a non-nil receiver: conversion of int64 to uint64. *)
Definition id_uint64 (id : Z) : Z := u64 id.
