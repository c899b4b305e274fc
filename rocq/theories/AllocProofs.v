From Verif Require Import Base SpanModel BinaryModel BinaryProofs AllocModel AllocSpec SizeSpec SizeProofs.

Lemma total_app a b : total (a ++ b) = total a + total b.
Proof. induction a; cbn [app total]; lia. Qed.

(* ---------- the recording decoder is the decoder ---------- *)

Lemma mbind_snd {A B} (x : mres A) (f : A -> bytes -> mres B) (y : dres A) g :
  x.2 = y -> (forall a r, (f a r).2 = g a r) -> (mbind x f).2 = dbind y g.
Proof. intros <- H. destruct x as [l [a r|e]]; cbn [mbind dbind snd]; [apply H|done]. Qed.

Lemma m_read_string_snd r : (m_read_string r).2 = read_string r.
Proof.
  unfold m_read_string, read_string. apply mbind_snd; [done|]. intros len r1. repeat case_match; done.
Qed.
Lemma m_read_entries_snd fuel : forall i b m r, (m_read_entries fuel i b m r).2 = read_entries fuel i b m r.
Proof.
  induction fuel as [|fuel IH]; intros i b m r; cbn [m_read_entries read_entries]; [done|]. destruct (i <? b); [|done].
  apply mbind_snd; [apply m_read_string_snd|]. intros k r1. apply mbind_snd; [apply m_read_string_snd|]. intros v r2. apply IH.
Qed.
Lemma m_read_blocks_snd fuel : forall m r, (m_read_blocks fuel m r).2 = read_blocks fuel m r.
Proof.
  induction fuel as [|fuel IH]; intros m r; cbn [m_read_blocks read_blocks]; [done|]. apply mbind_snd; [done|]. intros blk r1.
  destruct (blk =? 0); [done|]. destruct (blk <? 0).
  - apply mbind_snd; [done|]. intros sk r2. apply mbind_snd; [apply m_read_entries_snd|]. intros m' r3. apply IH.
  - apply mbind_snd; [apply m_read_entries_snd|]. intros m' r3. apply IH.
Qed.
Lemma m_binary_decode_snd r : (m_binary_decode r).2 = binary_decode r.
Proof.
  unfold m_binary_decode, binary_decode, read_map_string.
  repeat (apply mbind_snd; [first [apply m_read_string_snd|apply m_read_blocks_snd|done]|intros ? ?]). done.
Qed.

(* ---------- what is requested ---------- *)

Definition sane (z : Z) : Prop := 8192 < z <= 2147483647.
Definition frugal {A} (f : bytes -> mres A) : Prop := forall r,
  Forall sane (f r).1 /\
  match (f r).2 with
  | DOk _ rest => total (f r).1 + Z.of_nat (length rest) <= Z.of_nat (length r)
  | DErr e => total (f r).1 <= Z.of_nat (length r) \/ e = EEof /\ exists init z, (f r).1 = init ++ [z] /\ total init + z > Z.of_nat (length r) /\ total init <= Z.of_nat (length r)
  end.

Lemma frugal_bind {A B} (f : bytes -> mres A) (g : A -> bytes -> mres B) : frugal f -> (forall a, frugal (g a)) -> frugal (fun r => mbind (f r) g).
Proof.
  intros Hf Hg r. destruct (Hf r) as [H1 H2]. destruct (f r) as [l [a rest|e]]; cbn [mbind fst snd] in *.
  - destruct (Hg a rest) as [G1 G2]. destruct (g a rest) as [l' [b rest'|e]]; cbn [fst snd] in *; (split; [by apply Forall_app|]); rewrite total_app; [lia|].
    destruct G2 as [G2|(-> & init & z & -> & G2 & G3)]; [left; lia|]. rewrite total_app in *. cbn [total] in *.
    destruct (decide (total (l ++ init) + z > Z.of_nat (length r))) as [D|D]; rewrite total_app in D; [right|left; lia].
    split; [done|]. exists (l ++ init), z. rewrite <- app_assoc, total_app. split; [done|]. lia.
  - done.
Qed.
Lemma frugal_lift {A} (f : bytes -> dres A) : (forall r a rest, f r = DOk a rest -> (length rest <= length r)%nat) -> frugal (fun r => mlift (f r)).
Proof.
  intros H r. cbn [mlift fst snd]. split; [done|]. destruct (f r) as [a rest|e] eqn:E; cbn [total]; [|left; lia].
  specialize (H _ _ _ E). lia.
Qed.
Lemma frugal_long : frugal (fun r => mlift (read_long r)).
Proof. apply frugal_lift. intros r a rest H. apply read_long_shrinks in H. lia. Qed.
Lemma frugal_ret {A} (a : A) : frugal (fun r => mlift (DOk a r)).
Proof. apply frugal_lift. intros r b rest [= _ ->]. lia. Qed.
Lemma frugal_err {A} e : frugal (fun _ => mlift (A:=A) (DErr e)).
Proof. apply frugal_lift. done. Qed.

Lemma frugal_string : frugal m_read_string.
Proof.
  apply frugal_bind; [apply frugal_long|]. intros len. destruct ((len <? 0) || (2147483647 <? len)) eqn:E1; [apply frugal_err|].
  apply orb_false_iff in E1 as [E1 E2]. apply Z.ltb_ge in E1, E2. destruct (len =? 0) eqn:E3; [apply frugal_ret|]. apply Z.eqb_neq in E3.
  intros r. cbn [fst snd]. unfold pooled_buffer_length. split.
  - destruct (8192 <? len) eqn:E4; [|done]. apply Forall_singleton. unfold sane. lia.
  - destruct (Z.of_nat (length r) <? len) eqn:E5.
    + destruct (8192 <? len); [|left; cbn [total]; lia]. right. split; [done|]. exists [], len. cbn [app total]. split; [done|]. lia.
    + rewrite drop_length. destruct (8192 <? len); cbn [total]; lia.
Qed.
Lemma frugal_entries fuel : forall i b m, frugal (m_read_entries fuel i b m).
Proof.
  induction fuel as [|fuel IH]; intros i b m; cbn [m_read_entries]; [apply frugal_err|]. destruct (i <? b); [|apply frugal_ret].
  apply frugal_bind; [apply frugal_string|]. intros k. apply frugal_bind; [apply frugal_string|]. intros v. apply IH.
Qed.
Lemma frugal_blocks fuel : forall m, frugal (m_read_blocks fuel m).
Proof.
  induction fuel as [|fuel IH]; intros m; cbn [m_read_blocks]; [apply frugal_err|].
  apply frugal_bind; [apply frugal_long|]. intros blk. destruct (blk =? 0); [apply frugal_ret|]. destruct (blk <? 0).
  - apply frugal_bind; [apply frugal_long|]. intros _ r. apply (frugal_bind (fun r => m_read_entries (S (length r)) 0 (wrap64 (- blk)) m r)); [|intros; apply IH]. intros r'. apply frugal_entries.
  - intros r. apply (frugal_bind (fun r => m_read_entries (S (length r)) 0 blk m r)); [|intros; apply IH]. intros r'. apply frugal_entries.
Qed.
Lemma frugal_decode : frugal m_binary_decode.
Proof.
  unfold m_binary_decode. repeat (apply frugal_bind; [first [apply frugal_string|apply frugal_long]|intros ?]).
  intros r. apply (frugal_bind (fun r => m_read_blocks (S (length r)) ∅ r)); [|intros; apply frugal_ret]. intros r'. apply frugal_blocks.
Qed.

Lemma requested_each msg : Forall (fun z => 8192 < z <= 2147483647) (requested msg).
Proof. apply (frugal_decode msg). Qed.
Lemma requested_accepted msg s rest : binary_decode msg = DOk s rest -> total (requested msg) + Z.of_nat (length rest) <= Z.of_nat (length msg).
Proof. destruct (frugal_decode msg) as [_ H]. rewrite m_binary_decode_snd in H. intros E. by rewrite E in H. Qed.
Lemma requested_last msg : total (requested msg) <= Z.of_nat (length msg) \/
  binary_decode msg = DErr EEof /\ exists init z, requested msg = init ++ [z] /\ total init <= Z.of_nat (length msg) /\ z <= 2147483647.
Proof.
  destruct (frugal_decode msg) as [H1 H]. rewrite m_binary_decode_snd in H. unfold requested. destruct (binary_decode msg) as [s rest|e]; [left; lia|].
  destruct H as [H|(-> & init & z & E & G1 & G2)]; [by left|]. right. split; [done|]. exists init, z. split; [done|]. split; [done|].
  rewrite E in H1. apply Forall_app in H1 as [_ H1]. inversion_clear H1 as [|? ? Hz _]. unfold sane in Hz. lia.
Qed.
Lemma requested_huge : exists msg, length msg = 8%nat /\ requested msg = [2147483647] /\ binary_decode msg = DErr EEof.
Proof. exists [0; 0; 0; 254; 255; 255; 255; 15]. by vm_compute. Qed.

(* ---------- C90 for messages ---------- *)

Definition sized {A} (f : bytes -> dres A) (m : A -> nat) : Prop := forall r a rest, f r = DOk a rest -> (m a + length rest <= length r)%nat.

Lemma sized_long : sized read_long (fun _ => 1%nat).
Proof. intros r a rest H. apply read_long_shrinks in H. lia. Qed.
Lemma sized_string : sized read_string (fun s => (length s + 1)%nat).
Proof.
  intros r a rest. unfold read_string. destruct (read_long r) as [len r1|] eqn:E; cbn [dbind]; [|done]. apply sized_long in E.
  destruct ((len <? 0) || (2147483647 <? len)); [done|]. destruct (len =? 0); [intros [= <- <-]; cbn [length]; lia|].
  destruct (Z.of_nat (length r1) <? len) eqn:E2; [done|]. intros [= <- <-]. rewrite take_length, drop_length. lia.
Qed.
Lemma sized_entries fuel : forall i b m r m' rest, read_entries fuel i b m r = DOk m' rest -> (tags_size m' + length rest <= tags_size m + length r)%nat.
Proof.
  induction fuel as [|fuel IH]; intros i b m r m' rest; cbn [read_entries]; [done|]. destruct (i <? b); [|intros [= <- <-]; lia].
  destruct (read_string r) as [k r1|] eqn:E1; cbn [dbind]; [|done]. destruct (read_string r1) as [v r2|] eqn:E2; cbn [dbind]; [|done].
  intros H. apply IH in H. apply sized_string in E1, E2. pose proof (tags_size_insert k v m). lia.
Qed.
Lemma sized_blocks fuel : forall m r m' rest, read_blocks fuel m r = DOk m' rest -> (tags_size m' + length rest <= tags_size m + length r)%nat.
Proof.
  induction fuel as [|fuel IH]; intros m r m' rest; cbn [read_blocks]; [done|]. destruct (read_long r) as [blk r1|] eqn:E; cbn [dbind]; [|done].
  apply sized_long in E. destruct (blk =? 0); [intros [= <- <-]; lia|]. destruct (blk <? 0).
  - destruct (read_long r1) as [sk r2|] eqn:E2; cbn [dbind]; [|done]. apply sized_long in E2.
    destruct (read_entries _ _ _ m r2) as [m1 r3|] eqn:E3; cbn [dbind]; [|done]. apply sized_entries in E3. intros H. apply IH in H. lia.
  - destruct (read_entries _ _ _ m r1) as [m1 r3|] eqn:E3; cbn [dbind]; [|done]. apply sized_entries in E3. intros H. apply IH in H. lia.
Qed.

Lemma binary_size msg s rest : binary_decode msg = DOk s rest ->
  (length (s_name s) + length (s_service s) + tags_size (s_tags s) + 12 + length rest <= length msg)%nat.
Proof.
  unfold binary_decode, read_map_string.
  do 3 (let E := fresh "E" in destruct (read_long _) as [? ?|] eqn:E; cbn [dbind]; [|done]; apply sized_long in E).
  do 2 (let E := fresh "E" in destruct (read_string _) as [? ?|] eqn:E; cbn [dbind]; [|done]; apply sized_string in E).
  do 6 (let E := fresh "E" in destruct (read_long _) as [? ?|] eqn:E; cbn [dbind]; [|done]; apply sized_long in E).
  destruct (read_blocks _ ∅ _) as [tags r|] eqn:Et; cbn [dbind]; [|done]. intros [= <- <-]. cbn [s_name s_service s_tags].
  assert (Hb : (tags_size tags + 1 + length r <= length rest10)%nat); [|lia].
  revert Et. cbn [read_blocks]. destruct (read_long rest10) as [blk r1|] eqn:El; cbn [dbind]; [|done]. apply sized_long in El.
  destruct (blk =? 0); [intros [= <- <-]; rewrite tags_size_empty; lia|]. destruct (blk <? 0).
  - destruct (read_long r1) as [sk r2|] eqn:E2'; cbn [dbind]; [|done]. apply sized_long in E2'.
    destruct (read_entries _ _ _ ∅ r2) as [m1 r3|] eqn:E3'; cbn [dbind]; [|done]. apply sized_entries in E3'. intros H. apply sized_blocks in H. rewrite tags_size_empty in E3'. lia.
  - destruct (read_entries _ _ _ ∅ r1) as [m1 r3|] eqn:E3'; cbn [dbind]; [|done]. apply sized_entries in E3'. intros H. apply sized_blocks in H. rewrite tags_size_empty in E3'. lia.
Qed.
