(** Machine integers and byte strings shared by all models.

    Go's [int64], [uint64] and [uint16] are modelled as [Z] with an explicit wrap at every operation that can
    leave the range (the Go language specification, "Integer overflow").  Go's [byte] is a [Z]; [string] and
    [[]byte] are [list Z]. *)
From stdpp Require Export prelude list gmap.
From Coq Require Export ZArith Lia.
From Coq Require Import Ascii.
From Coq Require String.
Export String.StringSyntax.
From Coq Require Export ZifyBool.
Global Open Scope Z_scope.

Global Arguments Z.pow : simpl never.
Global Arguments Z.mul : simpl never.
Global Arguments Z.add : simpl never.
Global Arguments Z.sub : simpl never.
Global Arguments Z.modulo : simpl never.
Global Arguments Z.div : simpl never.
Global Arguments Z.quot : simpl never.
Global Arguments Z.of_nat : simpl never.
Global Arguments Z.to_nat : simpl never.

(** Byte strings: Go [string] / [[]byte] contents. *)
Notation bytes := (list Z) (only parsing).
Notation gostring := (list Z) (only parsing).

(** A Go [byte] value. *)
Definition byte_ok (b : Z) : Prop := 0 <= b < 256.

(** Go string literals. *)
Fixpoint str (s : String.string) : list Z :=
  match s with
  | String.EmptyString => []
  | String.String c s' => Z.of_nat (nat_of_ascii c) :: str s'
  end.
Arguments str _%string_scope.

(** Ranges of the machine types. *)
Definition int64_ok (z : Z) : Prop := - 2^63 <= z < 2^63.
Definition uint64_ok (z : Z) : Prop := 0 <= z < 2^64.

(** Wrap-around to [int64], [uint64], [uint16]. *)
Definition wrap64 (z : Z) : Z := (z + 2^63) mod 2^64 - 2^63.
Definition u64 (z : Z) : Z := z mod 2^64.
Definition u16 (z : Z) : Z := z mod 2^16.

Lemma p63 : 2^63 = 9223372036854775808. Proof. reflexivity. Qed.
Lemma p64 : 2^64 = 18446744073709551616. Proof. reflexivity. Qed.
Lemma p16 : 2^16 = 65536. Proof. reflexivity. Qed.
Lemma p31 : 2^31 = 2147483648. Proof. reflexivity. Qed.
Global Ltac p2 := rewrite ?p63, ?p64, ?p16, ?p31 in *.

(** [lia] with division and modulo by constants. *)
Ltac zlia := unfold wrap64, u64, u16, int64_ok, uint64_ok, byte_ok in *; p2; Z.div_mod_to_equations; lia.

Lemma wrap64_id z : int64_ok z -> wrap64 z = z.
Proof. zlia. Qed.
Lemma wrap64_ok z : int64_ok (wrap64 z).
Proof. zlia. Qed.
Lemma u64_id z : uint64_ok z -> u64 z = z.
Proof. zlia. Qed.
Lemma u64_ok z : uint64_ok (u64 z).
Proof. zlia. Qed.
Lemma u64_wrap64 z : u64 (wrap64 z) = u64 z.
Proof. zlia. Qed.
Lemma wrap64_u64 z : wrap64 (u64 z) = wrap64 z.
Proof. zlia. Qed.
Lemma wrap64_wrap64 z : wrap64 (wrap64 z) = wrap64 z.
Proof. apply wrap64_id, wrap64_ok. Qed.
Lemma wrap64_add_l a b : wrap64 (wrap64 a + b) = wrap64 (a + b).
Proof. zlia. Qed.
Lemma wrap64_add_r a b : wrap64 (a + wrap64 b) = wrap64 (a + b).
Proof. zlia. Qed.
Lemma wrap64_eq_mod a b : wrap64 a = wrap64 b <-> a mod 2^64 = b mod 2^64.
Proof. split; zlia. Qed.
Lemma u64_inj_int64 a b : int64_ok a -> int64_ok b -> u64 a = u64 b -> a = b.
Proof. zlia. Qed.
Lemma u16_id z : 0 <= z < 65536 -> u16 z = z.
Proof. zlia. Qed.

(** Bit-level lemmas. *)
Lemma land_disjoint k n d : 0 <= n -> 0 <= d < 2^n -> Z.land (k * 2^n) d = 0.
Proof.
  intros Hn Hd. apply Z.bits_inj'. intros i Hi. rewrite Z.bits_0, Z.land_spec.
  destruct (decide (i < n)).
  - rewrite Z.mul_pow2_bits_low by lia. reflexivity.
  - rewrite <- (Z.mod_small d (2^n)) by lia. rewrite Z.mod_pow2_bits_high by lia.
    apply andb_false_r.
Qed.
Lemma lor_disjoint k n d : 0 <= n -> 0 <= d < 2^n -> Z.lor (k * 2^n) d = k * 2^n + d.
Proof.
  intros Hn Hd. pose proof (land_disjoint k n d Hn Hd) as H.
  rewrite <- Z.lxor_lor by exact H. symmetry. apply Z.add_nocarry_lxor. exact H.
Qed.
Lemma lor_disjoint' d k n : 0 <= n -> 0 <= d < 2^n -> Z.lor d (k * 2^n) = d + k * 2^n.
Proof. intros. rewrite Z.lor_comm, lor_disjoint by lia. lia. Qed.
Lemma land255 z : Z.land z 255 = z mod 256.
Proof. change 255 with (Z.ones 8). rewrite Z.land_ones by lia. reflexivity. Qed.
Lemma land127 z : Z.land z 127 = z mod 128.
Proof. change 127 with (Z.ones 7). rewrite Z.land_ones by lia. reflexivity. Qed.
Lemma land15 z : Z.land z 15 = z mod 16.
Proof. change 15 with (Z.ones 4). rewrite Z.land_ones by lia. reflexivity. Qed.
Lemma land1 z : Z.land z 1 = z mod 2.
Proof. change 1 with (Z.ones 1) at 1. rewrite Z.land_ones by lia. reflexivity. Qed.
