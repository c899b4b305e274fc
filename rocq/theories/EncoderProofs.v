(** Lemmas about the Kafka encoder and consumer. *)
From Coq Require Import Sorted.
From Verif Require Import Base SpanModel BinaryModel BinarySpec BinaryProofs EncoderModel EncoderSpec.

Lemma slab_ge : (8 + expected_max_span_size <= slab_size)%nat.
Proof. unfold slab_size, expected_max_span_size. apply Nat2Z.inj_le. rewrite Nat2Z.inj_add, !Z2Nat.id; lia. Qed.
Lemma expected_pos : (0 < expected_max_span_size)%nat.
Proof. unfold expected_max_span_size. apply Nat2Z.inj_lt. rewrite !Z2Nat.id; lia. Qed.
Lemma slices_ge : (2 <= slices_size)%nat.
Proof. unfold slices_size. apply Nat2Z.inj_le. rewrite !Z2Nat.id; lia. Qed.
#[local] Opaque slab_size expected_max_span_size slices_size.

(* ---------- memory ---------- *)

Definition inb {A} (h : heap A) (s : slice) : Prop :=
  exists arr, h !! sl_arr s = Some arr /\ (sl_off s + sl_len s <= length arr)%nat.

Lemma inb_lt {A} (h : heap A) s : inb h s -> (sl_arr s < length h)%nat.
Proof. intros (arr & H & _). by eapply lookup_lt_Some. Qed.

Lemma slice_get_eq {A} (h : heap A) s arr : h !! sl_arr s = Some arr ->
  slice_get h s = take (sl_len s) (drop (sl_off s) arr).
Proof. intros H. unfold slice_get. by rewrite H. Qed.

Lemma inb_app {A} (h : heap A) x s : inb h s -> inb (h ++ [x]) s.
Proof. intros (arr & H & ?). exists arr. split; [|done]. by apply lookup_app_l_Some. Qed.

Lemma slice_get_app {A} (h : heap A) x s : inb h s -> slice_get (h ++ [x]) s = slice_get h s.
Proof. intros (arr & H & ?). unfold slice_get. rewrite H. erewrite lookup_app_l_Some by done. done. Qed.

Lemma store_len {A} (h h' : heap A) a off xs : store h a off xs = Some h' -> length h' = length h.
Proof.
  unfold store. destruct (h !! a) as [arr|]; [|done]. destruct (_ <=? _)%nat; [|done].
  intros [= <-]. apply insert_length.
Qed.

Lemma store_ok {A} (h : heap A) a off xs arr : h !! a = Some arr -> (off + length xs <= length arr)%nat ->
  store h a off xs = Some (<[a := take off arr ++ xs ++ drop (off + length xs) arr]> h).
Proof. intros H Hl. unfold store. rewrite H. replace (off + length xs <=? length arr)%nat with true; [done|]. symmetry. apply Nat.leb_le. lia. Qed.

Lemma store_inv {A} (h h' : heap A) a off xs : store h a off xs = Some h' ->
  exists arr, h !! a = Some arr /\ (off + length xs <= length arr)%nat /\
    h' = <[a := take off arr ++ xs ++ drop (off + length xs) arr]> h /\
    h' !! a = Some (take off arr ++ xs ++ drop (off + length xs) arr).
Proof.
  unfold store. destruct (h !! a) as [arr|] eqn:E; [|done]. destruct (_ <=? _)%nat eqn:El; [|done].
  intros [= <-]. apply Nat.leb_le in El. exists arr. do 3 (split; [done|]).
  apply list_lookup_insert. by eapply lookup_lt_Some.
Qed.

Lemma store_inb {A} (h h' : heap A) a off xs s : store h a off xs = Some h' -> inb h s -> inb h' s.
Proof.
  intros Hs (arr0 & H0 & Hl0). destruct (store_inv _ _ _ _ _ Hs) as (arr & H & Hl & -> & Hn).
  destruct (decide (sl_arr s = a)) as [Heq|Hne].
  - rewrite Heq, H in H0. injection H0 as <-. eexists. rewrite Heq. split; [exact Hn|].
    rewrite !app_length, take_length, drop_length. lia.
  - exists arr0. rewrite list_lookup_insert_ne by done. done.
Qed.

Lemma store_frame {A} (h h' : heap A) a off xs s : store h a off xs = Some h' ->
  (sl_arr s <> a \/ sl_off s + sl_len s <= off)%nat -> slice_get h' s = slice_get h s.
Proof.
  intros Hs Hd. destruct (store_inv _ _ _ _ _ Hs) as (arr & H & Hl & -> & Hn).
  destruct (decide (sl_arr s = a)) as [Heq|Hne].
  - rewrite <- Heq in H, Hn. rewrite <- Heq, (slice_get_eq _ s _ Hn), (slice_get_eq _ s _ H). destruct Hd as [Hd|Hd]; [done|].
    rewrite skipn_app, take_app_le; [|rewrite drop_length, take_length; lia].
    rewrite skipn_firstn_comm, take_take. f_equal. lia.
  - unfold slice_get. by rewrite list_lookup_insert_ne.
Qed.

Lemma store_get {A} (h h' : heap A) a o off xs c : store h a off xs = Some h' -> (o <= off)%nat ->
  slice_get h' (Slice a o (off - o + length xs) c) = slice_get h (Slice a o (off - o) c) ++ xs.
Proof.
  intros Hs Ho. destruct (store_inv _ _ _ _ _ Hs) as (arr & H & Hl & -> & Hn).
  rewrite (slice_get_eq _ (Slice a o _ c) _ Hn), (slice_get_eq _ (Slice a o _ c) _ H). cbn [sl_arr sl_off sl_len].
  rewrite skipn_app, take_length. replace (o - off `min` length arr)%nat with 0%nat by lia. rewrite drop_0.
  rewrite skipn_firstn_comm.
  assert (Hlen : length (take (off - o) (drop o arr)) = (off - o)%nat) by (rewrite take_length, drop_length; lia).
  rewrite take_app_ge by lia. f_equal.
  rewrite Hlen. replace (off - o + length xs - (off - o))%nat with (length xs) by lia. apply take_app.
Qed.

Lemma slice_get_length {A} (h : heap A) s : inb h s -> length (slice_get h s) = sl_len s.
Proof. intros (arr & H & Hl). rewrite (slice_get_eq _ _ _ H), take_length, drop_length. lia. Qed.

Lemma slice_get_cap {A} (h : heap A) a o l c c' : slice_get h (Slice a o l c) = slice_get h (Slice a o l c').
Proof. done. Qed.

(* ---------- regions ---------- *)

Definition below (l f : slice) : Prop :=
  sl_len f = 0%nat \/ sl_arr l <> sl_arr f \/ (sl_off l + sl_len l <= sl_off f)%nat.

(** Live slices hold their contents and lie below every free region of their array; free regions do not share
    arrays. *)
Definition RInv {A} (h : heap A) (lives : list (slice * list A)) (frees : list slice) : Prop :=
  (forall l x, (l, x) ∈ lives -> inb h l /\ slice_get h l = x /\ forall i f, frees !! i = Some f -> below l f) /\
  (forall i f, frees !! i = Some f -> sl_len f = 0%nat \/ inb h f) /\
  (forall i j fi fj, i <> j -> frees !! i = Some fi -> frees !! j = Some fj ->
     sl_len fi = 0%nat \/ sl_len fj = 0%nat \/ sl_arr fi <> sl_arr fj).

Lemma R_new {A} (h : heap A) lives frees : RInv h lives frees -> RInv h lives (frees ++ [nil_slice]).
Proof.
  assert (K : forall i f, (frees ++ [nil_slice]) !! i = Some f -> frees !! i = Some f \/ f = nil_slice).
  { intros i f H. apply lookup_app_Some in H as [H|[_ H]]; [by left|]. apply list_lookup_singleton_Some in H as [_ <-]. by right. }
  intros (H1 & H2 & H3). split; [|split].
  - intros l x Hin. destruct (H1 l x Hin) as (? & ? & Hb). do 2 (split; [done|]). intros i f Hf.
    destruct (K _ _ Hf) as [Hf'| ->]; [by eapply Hb|]. by left.
  - intros i f Hf. destruct (K _ _ Hf) as [Hf'| ->]; [by eapply H2|]. by left.
  - intros i j fi fj Hne Hi Hj. destruct (K _ _ Hi) as [Hi'| ->]; [|by left].
    destruct (K _ _ Hj) as [Hj'| ->]; [|by right; left]. eauto.
Qed.

Lemma insert_cases {A} (l : list A) i k x y : (<[i := x]> l) !! k = Some y -> (k = i /\ y = x) \/ (k <> i /\ l !! k = Some y).
Proof.
  destruct (decide (k = i)) as [->|Hne].
  - intros H. left. split; [done|]. destruct (decide (i < length l)%nat).
    + rewrite list_lookup_insert in H by done. by injection H as <-.
    + rewrite list_insert_ge in H by lia. apply lookup_lt_Some in H. lia.
  - rewrite list_lookup_insert_ne by done. by right.
Qed.

Lemma R_alloc {A} (h : heap A) lives frees i z n : RInv h lives frees ->
  RInv (h ++ [replicate n z]) lives (<[i := Slice (length h) 0 n n]> frees).
Proof.
  intros (H1 & H2 & H3). split; [|split].
  - intros l x Hin. destruct (H1 l x Hin) as (Hi & Hg & Hb). split; [by apply inb_app|]. split; [by rewrite slice_get_app|].
    intros k f Hf. apply insert_cases in Hf as [[-> ->]|[_ Hf]]; [|by eapply Hb].
    right; left. cbn. apply inb_lt in Hi. lia.
  - intros k f Hf. apply insert_cases in Hf as [[-> ->]|[_ Hf]].
    + right. exists (replicate n z). cbn. rewrite replicate_length. split; [|lia]. by apply list_lookup_middle.
    + destruct (H2 _ _ Hf); [by left|right]. by apply inb_app.
  - intros k j fk fj Hne Hk Hj.
    apply insert_cases in Hk as [[-> ->]|[Hki Hk]]; apply insert_cases in Hj as [[-> ->]|[Hji Hj]]; cbn.
    + done.
    + destruct (H2 _ _ Hj) as [|Hi]; [tauto|]. apply inb_lt in Hi. right; right. lia.
    + destruct (H2 _ _ Hk) as [|Hi]; [tauto|]. apply inb_lt in Hi. right; right. lia.
    + eauto.
Qed.

(** Memory changes confined to the free region [f] and to arrays that did not exist before. *)
Definition confined {A} (h h' : heap A) (f : slice) : Prop :=
  (length h <= length h')%nat /\
  (forall s, inb h s -> inb h' s) /\
  (forall s, inb h s -> (sl_arr s <> sl_arr f \/ sl_off s + sl_len s <= sl_off f)%nat -> slice_get h' s = slice_get h s).

Lemma R_confined {A} (h h' : heap A) lives frees i f :
  RInv h lives frees -> frees !! i = Some f -> sl_len f <> 0%nat -> confined h h' f -> RInv h' lives frees.
Proof.
  intros (H1 & H2 & H3) Hf Hn (_ & Hin & Hfr). split; [|split].
  - intros l x Hl. destruct (H1 l x Hl) as (Hi & Hg & Hb). split; [by apply Hin|]. split; [|done].
    rewrite Hfr; [done|done|]. destruct (Hb _ _ Hf) as [|[|]]; tauto.
  - intros k f' Hf'. destruct (H2 _ _ Hf'); [by left|right]. by apply Hin.
  - done.
Qed.

(** Shrinking a free region and adding a live slice. *)
Lemma R_add {A} (h : heap A) lives frees i f n l x :
  RInv h lives frees -> frees !! i = Some f -> (n <= sl_len f)%nat ->
  inb h l -> slice_get h l = x ->
  (forall k g, k <> i -> frees !! k = Some g -> below l g) -> below l (slice_from f n) ->
  RInv h ((l, x) :: lives) (<[i := slice_from f n]> frees).
Proof.
  intros (H1 & H2 & H3) Hf Hn Hi Hg Hb1 Hb2. split; [|split].
  - intros l' x' Hin. apply elem_of_cons in Hin as [[= -> ->]|Hin].
    + do 2 (split; [done|]). intros k g Hk. apply insert_cases in Hk as [[-> ->]|[? Hk]]; [done|by eapply Hb1].
    + destruct (H1 _ _ Hin) as (? & ? & Hb). do 2 (split; [done|]). intros k g Hk.
      apply insert_cases in Hk as [[-> ->]|[? Hk]]; [|by eapply Hb].
      destruct (Hb _ _ Hf) as [Hz0|[Ha|Ho]]; unfold below, slice_from; cbn; [left; lia|by right; left|right; right; lia].
  - intros k g Hk. apply insert_cases in Hk as [[-> ->]|[? Hk]]; [|eauto].
    destruct (H2 _ _ Hf) as [H0|(arr & Ha & Hl)]; cbn; [left; lia|].
    right. exists arr. cbn. split; [done|lia].
  - intros k j fk fj Hne Hk Hj.
    apply insert_cases in Hk as [[-> ->]|[Hki Hk]]; apply insert_cases in Hj as [[-> ->]|[Hji Hj]]; cbn.
    + done.
    + destruct (H3 i j _ _ Hne Hf Hj) as [|[|]]; [left; lia|tauto|tauto].
    + destruct (H3 k i _ _ Hne Hk Hf) as [|[|]]; [tauto|right; left; lia|tauto].
    + eauto.
Qed.

Lemma store_confined {A} (h h' : heap A) f off xs : store h (sl_arr f) off xs = Some h' ->
  (sl_off f <= off)%nat -> confined h h' f.
Proof.
  intros Hs Ho. split; [|split].
  - rewrite (store_len _ _ _ _ _ Hs). lia.
  - intros s. by eapply store_inb.
  - intros s _ Hd. eapply store_frame; [done|]. destruct Hd; [by left|right; lia].
Qed.

(** Taking [n] elements off the front of a free region and filling them. *)
Lemma R_carve {A} (h h' : heap A) lives frees i f xs c :
  RInv h lives frees -> frees !! i = Some f -> (0 < length xs <= sl_len f)%nat ->
  store h (sl_arr f) (sl_off f) xs = Some h' ->
  RInv h' ((Slice (sl_arr f) (sl_off f) (length xs) c, xs) :: lives) (<[i := slice_from f (length xs)]> frees).
Proof.
  intros HR Hf Hn Hs. pose proof HR as (H1 & H2 & H3).
  destruct (store_inv _ _ _ _ _ Hs) as (arr & Ha & Hl & _ & Hn').
  apply R_add; [|done|lia| | | |].
  - eapply R_confined; [done|done|lia|]. eapply store_confined; [done|lia].
  - eexists. cbn. split; [exact Hn'|]. rewrite !app_length, take_length, drop_length. lia.
  - pose proof (store_get _ _ _ (sl_off f) _ _ c Hs ltac:(lia)) as Hg.
    replace (sl_off f - sl_off f + length xs)%nat with (length xs) in Hg by lia. rewrite Hg.
    replace (sl_off f - sl_off f)%nat with 0%nat by lia. unfold slice_get. cbn [sl_len]. by rewrite take_0.
  - intros k g Hk Hg. destruct (H3 k i g f Hk Hg Hf) as [|[|]]; unfold below; cbn; [tauto|lia|].
    right; left. congruence.
  - right; right. cbn. lia.
Qed.

(* ---------- the buffer ---------- *)

Section buffer.
  Context (h0 : heap Z) (f : slice) (Hf : inb h0 f) (Hfl : (expected_max_span_size <= sl_len f)%nat).

  (** State of the buffer started in the first [expected_max_span_size] bytes of [f]. *)
  Definition BI (h : heap Z) (b : slice) (acc : bytes) : Prop :=
    confined h0 h f /\
    inb h (Slice (sl_arr b) (sl_off b) (sl_cap b) (sl_cap b)) /\ (sl_len b <= sl_cap b)%nat /\
    slice_get h b = acc /\
    ((sl_arr b = sl_arr f /\ sl_off b = sl_off f /\ sl_cap b = expected_max_span_size) \/ (length h0 <= sl_arr b)%nat).

  Lemma BI_start : BI h0 (slice_empty_cap f expected_max_span_size) [].
  Proof.
    split; [|split; [|split; [|split]]].
    - split; [lia|]. split; [done|]. done.
    - destruct Hf as (arr & ? & ?). exists arr. cbn. split; [done|lia].
    - cbn. lia.
    - unfold slice_get. cbn. by rewrite take_0.
    - left. done.
  Qed.

  Lemma BI_grow h b acc n h' b' : BI h b acc -> buf_grow h b n = (h', b') ->
    BI h' b' acc /\ (sl_len b' + n <= sl_cap b')%nat.
  Proof.
    intros (Hc & Hin & Hle & Hg & Hloc) Hgrow. unfold buf_grow in Hgrow.
    destruct (sl_len b + n <=? sl_cap b)%nat eqn:E.
    { injection Hgrow as <- <-. apply Nat.leb_le in E. done. }
    apply Nat.leb_gt in E. injection Hgrow as <- <-. cbn [sl_len sl_cap]. split; [|lia].
    assert (Hinb : inb h b). { destruct Hin as (arr & ? & ?). exists arr. cbn in *. split; [done|lia]. }
    destruct Hc as (Hl & Hc1 & Hc2).
    assert (Hlen : length (slice_get h b ++ replicate (2 * sl_cap b + n - sl_len b) 0) = (2 * sl_cap b + n)%nat).
    { rewrite app_length, replicate_length, slice_get_length by done. lia. }
    split; [|split; [|split; [|split]]].
    - split; [rewrite app_length; lia|]. split.
      + intros s Hs. apply inb_app. auto.
      + intros s Hs Hd. rewrite slice_get_app by auto. auto.
    - exists (slice_get h b ++ replicate (2 * sl_cap b + n - sl_len b) 0).
      cbn [sl_arr sl_off sl_len sl_cap]. split; [by apply list_lookup_middle|]. rewrite Hlen. lia.
    - cbn [sl_len sl_cap]. lia.
    - rewrite (slice_get_eq _ _ (slice_get h b ++ replicate (2 * sl_cap b + n - sl_len b) 0)) by (cbn [sl_arr]; by apply list_lookup_middle).
      cbn [sl_off sl_len]. rewrite drop_0. rewrite take_app_alt; [done|]. by rewrite slice_get_length.
    - right. cbn. lia.
  Qed.

  Lemma BI_write h b acc bs : BI h b acc -> exists h' b', buf_write h b bs = Some (h', b') /\ BI h' b' (acc ++ bs).
  Proof.
    intros HB. unfold buf_write. destruct (buf_grow h b (length bs)) as [h1 b1] eqn:Eg.
    destruct (BI_grow _ _ _ _ _ _ HB Eg) as [(Hc & Hin & Hle & Hg & Hloc) Hfit].
    destruct Hin as (arr & Ha & Hl). cbn in Ha, Hl.
    rewrite (store_ok _ _ _ _ arr Ha) by lia.
    assert (Hst : store h1 (sl_arr b1) (sl_off b1 + sl_len b1) bs =
      Some (<[sl_arr b1 := take (sl_off b1 + sl_len b1) arr ++ bs ++ drop (sl_off b1 + sl_len b1 + length bs) arr]> h1))
      by (apply store_ok; [done|lia]).
    set (h2 := <[sl_arr b1 := _]> h1) in *. exists h2, (Slice (sl_arr b1) (sl_off b1) (sl_len b1 + length bs) (sl_cap b1)).
    split; [done|]. destruct Hc as (Hcl & Hc1 & Hc2).
    split; [|split; [|split; [|split]]].
    - split; [rewrite (store_len _ _ _ _ _ Hst); done|]. split.
      + intros s Hs. eapply store_inb; [done|auto].
      + intros s Hs Hd. rewrite (store_frame _ _ _ _ _ s Hst); [auto|].
        destruct Hloc as [(E1 & E2 & _)|Hnew].
        * rewrite E1, E2. destruct Hd; [by left|right; lia].
        * left. apply inb_lt in Hs. lia.
    - cbn. eapply store_inb; [done|]. exists arr. done.
    - cbn. lia.
    - pose proof (store_get _ _ _ (sl_off b1) _ _ (sl_cap b1) Hst ltac:(lia)) as Hget.
      replace (sl_off b1 + sl_len b1 - sl_off b1)%nat with (sl_len b1) in Hget by lia. rewrite Hget.
      f_equal. rewrite <- Hg. by destruct b1.
    - done.
  Qed.

  Definition op_bytes (ops : list wop) : bytes := concat (map (fun o => match o with WGrow _ => [] | WWrite bs => bs end) ops).

  Lemma BI_run ops : forall h b acc, BI h b acc -> exists h' b', run_ops h b ops = Some (h', b') /\ BI h' b' (acc ++ op_bytes ops).
  Proof.
    induction ops as [|[n|bs] ops IH]; intros h b acc HB; cbn [run_ops].
    - exists h, b. split; [done|]. unfold op_bytes; cbn. by rewrite app_nil_r.
    - destruct (buf_grow h b n) as [h1 b1] eqn:E. destruct (BI_grow _ _ _ _ _ _ HB E) as [HB1 _]. by apply IH.
    - destruct (BI_write h b acc bs HB) as (h1 & b1 & -> & HB1).
      destruct (IH _ _ _ HB1) as (h2 & b2 & -> & HB2). exists h2, b2. split; [done|].
      unfold op_bytes; cbn [map concat]. by rewrite app_assoc.
  Qed.
End buffer.

(* ---------- operations against the pure encoding ---------- *)

Definition ops_match (o : option (list wop)) (e : option bytes) : Prop :=
  exists ops, o = Some ops /\ e = Some (op_bytes ops).

Lemma op_bytes_app a b : op_bytes (a ++ b) = op_bytes a ++ op_bytes b.
Proof. unfold op_bytes. by rewrite map_app, concat_app. Qed.

Lemma write_long_some r : exists bs, write_long r = Some bs /\ bs <> [].
Proof.
  destruct (encode_int_spec (zigzag r) (zigzag_ok r)) as (bs & H1 & H2 & _). exists bs. split; [done|]. intros ->. cbn in H2. lia.
Qed.

Lemma long_ops_match r : ops_match (long_ops r) (write_long r).
Proof.
  unfold long_ops. destruct (write_long_some r) as (bs & -> & _). eexists. split; [reflexivity|]. f_equal.
  unfold op_bytes. cbn [map concat app]. induction bs as [|b bs IH]; cbn [map concat app]; [done|]. by f_equal.
Qed.

Lemma string_ops_match s : ops_match (string_ops s) (write_string s).
Proof.
  unfold string_ops, write_string. destruct (long_ops_match (Z.of_nat (length s))) as (o & -> & ->).
  eexists. split; [reflexivity|]. cbn [oapp]. f_equal. rewrite op_bytes_app. f_equal. unfold op_bytes. cbn. by rewrite app_nil_r.
Qed.

Lemma cat_ops_cons o e l e' : ops_match o e -> ops_match (cat_ops l) e' -> ops_match (cat_ops (o :: l)) (e +++ e').
Proof.
  intros (a & -> & ->) (b & Hb & ->). cbn [cat_ops]. rewrite Hb. eexists. split; [reflexivity|].
  cbn [oapp]. by rewrite op_bytes_app.
Qed.
Lemma cat_ops_last o e : ops_match o e -> ops_match (cat_ops [o]) e.
Proof. intros (a & -> & ->). eexists. split; [reflexivity|]. cbn. by rewrite app_nil_r. Qed.

Lemma map_ops_match order : ops_match (map_ops order) (write_map_string order).
Proof.
  unfold map_ops, write_map_string. destruct order as [|kv order]; [apply long_ops_match|].
  apply (cat_ops_cons _ _ _ (write_entries (kv :: order) +++ write_long 0)); [apply long_ops_match|].
  generalize (kv :: order). clear kv order. intros order. induction order as [|[k v] order IH].
  - cbn [map concat app write_entries].
    destruct (cat_ops_last _ _ (long_ops_match 0)) as (o & Ho & Hb). exists o. split; [done|].
    rewrite Hb. done.
  - cbn [map concat app write_entries fst snd].
    destruct (string_ops_match k) as (ok & Hok & Hbk). destruct (string_ops_match v) as (ov & Hov & Hbv).
    destruct IH as (o & Ho & Hb). cbn [cat_ops]. rewrite Hok, Hov, Ho.
    eexists. split; [reflexivity|]. rewrite Hbk, Hbv. 
    destruct (write_entries order) as [we|]; [|done]. destruct (write_long 0) as [wz|]; [|done].
    cbn [oapp] in *. injection Hb as Hb. f_equal. rewrite !op_bytes_app, <- Hb, <- !app_assoc. done.
Qed.

Lemma span_ops_match order s : ops_match (span_ops order s) (binary_encode order s).
Proof.
  unfold span_ops, binary_encode.
  repeat (apply cat_ops_cons; [first [apply long_ops_match | apply string_ops_match]|]).
  apply cat_ops_last, map_ops_match.
Qed.

Lemma binary_encode_some order s : exists bs, binary_encode order s = Some bs /\ bs <> [].
Proof.
  destruct (span_ops_match order s) as (ops & _ & H). exists (op_bytes ops). split; [done|]. intros E. rewrite E in H.
  unfold binary_encode in H. destruct (write_long_some (s_id s)) as (b & Hb & Hne). rewrite Hb in H.
  match type of H with oapp _ ?x = _ => destruct x as [y|]; [|done] end. cbn in H. injection H as H.
  apply app_eq_nil in H as [? _]. done.
Qed.

(* ---------- the encoder invariant ---------- *)

Definition cell (p : nat * nat) (c : nat) : slice := Slice p.1 p.2 1 c.

(** A built message with the contents it must have. *)
Record built := Built { b_msg : message; b_key : bytes; b_value : bytes }.

Definition MInv (m : mem) (bl : list built) : Prop :=
  exists lives clives,
    RInv (m_heap m) lives (map e_buf (m_encs m)) /\
    RInv (m_cells m) clives (map e_slices (m_encs m)) /\
    forall b, b ∈ bl -> exists ks vs,
      (ks, b_key b) ∈ lives /\ (vs, b_value b) ∈ lives /\
      (exists c, (cell (msg_key (b_msg b)) c, [ks]) ∈ clives) /\ (exists c, (cell (msg_value (b_msg b)) c, [vs]) ∈ clives).

Lemma cell_get_live h cells encs lives clives frees frees' p c s x :
  RInv h lives frees -> RInv cells clives frees' -> (cell p c, [s]) ∈ clives -> (s, x) ∈ lives ->
  cell_get (Mem h cells encs) p = x.
Proof.
  intros (H1 & _) (C1 & _) Hc Hs. destruct (C1 _ _ Hc) as ((arr & Ha & Hl) & Hg & _).
  destruct (H1 _ _ Hs) as (_ & Hx & _). unfold cell_get. cbn [m_cells m_heap]. cbn in Ha, Hl.
  rewrite (slice_get_eq _ _ arr) in Hg by done. cbn [cell sl_off sl_len] in Hg. rewrite Ha.
  destruct (arr !! p.2) as [s'|] eqn:E.
  - rewrite (drop_S _ _ _ E) in Hg. cbn in Hg. by injection Hg as ->.
  - apply lookup_ge_None in E. lia.
Qed.

Lemma MInv_get m bl b : MInv m bl -> b ∈ bl ->
  cell_get m (msg_key (b_msg b)) = b_key b /\ cell_get m (msg_value (b_msg b)) = b_value b.
Proof.
  intros (lives & clives & HR & HC & HB) Hin. destruct (HB b Hin) as (ks & vs & Hk & Hv & (ck & Hck) & (cv & Hcv)).
  destruct m as [h cells encs]. split; by eapply cell_get_live.
Qed.

Lemma encoder_encode_ok h cells i bufs slcs lives clives enc order sp :
  RInv h lives bufs -> RInv cells clives slcs ->
  bufs !! i = Some (e_buf enc) -> slcs !! i = Some (e_slices enc) ->
  exists h' cells' enc' msg bs ks vs,
    encoder_encode h cells enc order sp = Some (h', cells', enc', msg) /\
    binary_encode order sp = Some bs /\
    RInv h' ((vs, bs) :: (ks, le_bytes (u64 (s_trace sp))) :: lives) (<[i := e_buf enc']> bufs) /\
    RInv cells' ((cell (msg_value msg) 1, [vs]) :: (cell (msg_key msg) 1, [ks]) :: clives) (<[i := e_slices enc']> slcs).
Proof.
  intros HR HC Hbi Hsi. unfold encoder_encode.
  (* slab *)
  destruct (if (sl_len (e_buf enc) <? 8 + expected_max_span_size)%nat
            then alloc h 0 slab_size else (h, e_buf enc)) as [h1 buf] eqn:E1.
  assert (HR1 : RInv h1 lives (<[i := buf]> bufs) /\ (8 + expected_max_span_size <= sl_len buf)%nat).
  { destruct (Nat.ltb_spec (sl_len (e_buf enc)) (8 + expected_max_span_size)).
    - unfold alloc in E1. injection E1 as <- <-. split; [by apply R_alloc|]. cbn [sl_len]. apply slab_ge.
    - injection E1 as <- <-. split; [|done]. by rewrite list_insert_id. }
  clear E1. destruct HR1 as [HR1 Hbuf].
  assert (Hi1 : (<[i := buf]> bufs) !! i = Some buf).
  { apply list_lookup_insert. by eapply lookup_lt_Some. }
  (* header cells *)
  destruct (if (sl_len (e_slices enc) <? 2)%nat then alloc cells nil_slice slices_size else (cells, e_slices enc))
    as [c1 slc] eqn:E2.
  assert (HC1 : RInv c1 clives (<[i := slc]> slcs) /\ (2 <= sl_len slc)%nat).
  { destruct (Nat.ltb_spec (sl_len (e_slices enc)) 2).
    - unfold alloc in E2. injection E2 as <- <-. split; [by apply R_alloc|]. cbn [sl_len]. apply slices_ge.
    - injection E2 as <- <-. split; [|done]. by rewrite list_insert_id. }
  clear E2. destruct HC1 as [HC1 Hslc].
  assert (Hi2 : (<[i := slc]> slcs) !! i = Some slc).
  { apply list_lookup_insert. by eapply lookup_lt_Some. }
  cbv zeta. cbn [fst snd].
  (* key cell *)
  pose proof HC1 as (_ & HC1f & _). destruct (HC1f _ _ Hi2) as [|(carr & Hca & Hcl)]; [lia|].
  assert (Sc1 := store_ok c1 (sl_arr slc) (sl_off slc) [slice_to buf 8] carr Hca ltac:(cbn; lia)).
  rewrite Sc1. match type of Sc1 with _ = Some ?x => set (c2 := x) in * end.
  pose proof (R_carve _ _ _ _ _ _ [slice_to buf 8] 1 HC1 Hi2 ltac:(cbn; lia) Sc1) as HC2. cbn [length] in HC2.
  rewrite list_insert_insert in HC2.
  assert (Hi2' : (<[i := slice_from slc 1]> slcs) !! i = Some (slice_from slc 1)).
  { apply list_lookup_insert. by eapply lookup_lt_Some. }
  (* key bytes *)
  pose proof HR1 as (_ & HR1f & _). destruct (HR1f _ _ Hi1) as [|(arr & Ha & Hal)]; [lia|].
  assert (Hle : length (le_bytes (u64 (s_trace sp))) = 8%nat) by done.
  assert (Sh1 := store_ok h1 (sl_arr buf) (sl_off buf) (le_bytes (u64 (s_trace sp))) arr Ha ltac:(lia)).
  unfold slice_to at 1 2. cbn [sl_arr sl_off]. rewrite Sh1.
  match type of Sh1 with _ = Some ?x => set (h2 := x) in * end.
  pose proof (R_carve _ _ _ _ _ _ (le_bytes (u64 (s_trace sp))) (sl_cap buf) HR1 Hi1 ltac:(lia) Sh1) as HR2. rewrite Hle in HR2.
  rewrite list_insert_insert in HR2.
  assert (Hi1' : (<[i := slice_from buf 8]> bufs) !! i = Some (slice_from buf 8)).
  { apply list_lookup_insert. by eapply lookup_lt_Some. }
  fold (slice_to buf 8) in HR2. clear HR1 HC1 HR1f HC1f.
  (* value *)
  destruct (span_ops_match order sp) as (ops & Hops & Henc). rewrite Hops.
  destruct (binary_encode_some order sp) as (bs & Hbs & Hne). rewrite Hbs in Henc. injection Henc as Henc.
  pose proof HR2 as (_ & HR2f & HR2s). 
  assert (Hf2 : inb h2 (slice_from buf 8)). { destruct (HR2f _ _ Hi1') as [E0|]; [cbn in E0; pose proof expected_pos; lia|done]. }
  assert (Hfl : (expected_max_span_size <= sl_len (slice_from buf 8))%nat) by (cbn; lia).
  destruct (BI_run h2 (slice_from buf 8) Hfl ops _ _ _ (BI_start h2 _ Hf2 Hfl)) as (h3 & b & Hrun & HBI).
  rewrite Hrun. cbn [app] in HBI. rewrite <- Henc in HBI.
  destruct HBI as (Hconf & Hinb & Hlen & Hget & Hloc).
  assert (Hinb' : inb h3 b). { destruct Hinb as (ar & ? & ?). exists ar. cbn in *. split; [done|lia]. }
  assert (Hbl : sl_len b = length bs) by (rewrite <- Hget; symmetry; by apply slice_get_length).
  assert (Hbn : (sl_len b <> 0)%nat) by (destruct bs; [done|rewrite Hbl; cbn; lia]).
  replace (sl_len b =? 0)%nat with false by (symmetry; by apply Nat.eqb_neq).
  assert (HR3 : RInv h3 ((slice_to buf 8, le_bytes (u64 (s_trace sp))) :: lives) (<[i := slice_from buf 8]> bufs)).
  { eapply R_confined; [done|done| |done]. cbn. pose proof expected_pos. lia. }
  (* value cell *)
  pose proof HC2 as (_ & HC2f & _). destruct (HC2f _ _ Hi2') as [E0|(carr2 & Hca2 & Hcl2)]; [cbn in E0; lia|].
  cbn in Hca2, Hcl2. replace (sl_off slc + 1)%nat with (S (sl_off slc)) in * by lia.
  assert (Sc2 := store_ok c2 (sl_arr slc) (S (sl_off slc)) [b] carr2 Hca2 ltac:(cbn; lia)).
  rewrite Sc2. match type of Sc2 with _ = Some ?x => set (c3 := x) in * end.
  assert (HC3 : RInv c3 ((cell (sl_arr slc, S (sl_off slc)) 1, [b]) :: (cell (sl_arr slc, sl_off slc) 1, [slice_to buf 8]) :: clives)
                  (<[i := slice_from slc 2]> slcs)).
  { pose proof (R_carve c2 c3 _ _ i (slice_from slc 1) [b] 1 HC2 Hi2' ltac:(cbn; lia)) as K.
    cbn [slice_from sl_arr sl_off] in K. replace (sl_off slc + 1)%nat with (S (sl_off slc)) in K by lia.
    specialize (K Sc2). rewrite list_insert_insert in K. cbn [length] in K.
    replace (slice_from (slice_from slc 1) 1) with (slice_from slc 2) in K; [exact K|].
    unfold slice_from; cbn. f_equal; lia. }
  assert (Hlt : (sl_arr (slice_from buf 8) < length h2)%nat) by by apply inb_lt.
  destruct Hloc as [(L1 & L2 & L3)|Hnew].
  - rewrite L1, L2, !Nat.eqb_refl. cbn [andb].
    do 7 eexists. split; [reflexivity|]. split; [exact Hbs|]. cbn [e_buf e_slices msg_key msg_value]. split; [|exact HC3].
    pose proof (R_add h3 _ _ i (slice_from buf 8) (sl_len b) b bs HR3 Hi1') as K.
    rewrite list_insert_insert in K. apply K.
    + cbn in Hfl |- *. lia.
    + done.
    + done.
    + intros k g Hk Hg.
      destruct (HR2s k i g _ Hk Hg Hi1') as [|[E0|]]; unfold below; [tauto|cbn in E0; pose proof expected_pos; lia|].
      right; left. congruence.
    + right; right. cbn in L2 |- *. lia.
  - replace (sl_arr b =? sl_arr (slice_from buf 8))%nat with false; [|symmetry; apply Nat.eqb_neq; lia]. cbn [andb].
    do 7 eexists. split; [reflexivity|]. split; [exact Hbs|]. cbn [e_buf e_slices msg_key msg_value]. split; [|exact HC3].
    pose proof (R_add h3 _ _ i (slice_from buf 8) 0 b bs HR3 Hi1') as K.
    rewrite list_insert_insert in K.
    replace (slice_from (slice_from buf 8) 0) with (slice_from buf 8) in K by (unfold slice_from; cbn; f_equal; lia).
    apply K.
    + lia.
    + done.
    + done.
    + intros k g Hk Hg. destruct (HR2f _ _ Hg) as [|Hi]; [by left|]. apply inb_lt in Hi. right; left. lia.
    + right; left. lia.
Qed.

Lemma map_insert {A B} (g : A -> B) l i x : map g (<[i := x]> l) = <[i := g x]> (map g l).
Proof. apply (list_fmap_insert g). Qed.

Lemma make_message_ok m bl i order sp : MInv m bl -> (i <= length (m_encs m))%nat ->
  exists m' msg bs, make_message m i order sp = Some (m', msg) /\ binary_encode order sp = Some bs /\
    length (m_encs m') = (if (i =? length (m_encs m))%nat then S (length (m_encs m)) else length (m_encs m)) /\
    MInv m' (Built msg (le_bytes (u64 (s_trace sp))) bs :: bl).
Proof.
  intros (lives & clives & HR & HC & HB) Hi. unfold make_message.
  set (encs := if (i =? length (m_encs m))%nat then m_encs m ++ [new_encoder] else m_encs m).
  assert (Hlen : length encs = if (i =? length (m_encs m))%nat then S (length (m_encs m)) else length (m_encs m)).
  { unfold encs. destruct (Nat.eqb_spec i (length (m_encs m))); [rewrite app_length; cbn; lia|done]. }
  assert (HR' : RInv (m_heap m) lives (map e_buf encs)).
  { unfold encs. destruct (_ =? _)%nat; [|done]. rewrite map_app. by apply R_new. }
  assert (HC' : RInv (m_cells m) clives (map e_slices encs)).
  { unfold encs. destruct (_ =? _)%nat; [|done]. rewrite map_app. by apply R_new. }
  destruct (lookup_lt_is_Some_2 encs i) as [enc Henc].
  { rewrite Hlen. destruct (Nat.eqb_spec i (length (m_encs m))); lia. }
  rewrite Henc.
  destruct (encoder_encode_ok (m_heap m) (m_cells m) i (map e_buf encs) (map e_slices encs) lives clives enc order sp
              HR' HC') as (h' & cells' & enc' & msg & bs & ks & vs & Hrun & Hbs & HR2 & HC2).
  { change (map e_buf encs) with (e_buf <$> encs). by rewrite list_lookup_fmap, Henc. }
  { change (map e_slices encs) with (e_slices <$> encs). by rewrite list_lookup_fmap, Henc. }
  rewrite Hrun. do 3 eexists. split; [reflexivity|]. split; [exact Hbs|]. cbn [m_encs m_heap m_cells].
  split; [by rewrite insert_length|].
  do 2 eexists. cbn [m_encs m_heap m_cells]. rewrite !map_insert. split; [exact HR2|]. split; [exact HC2|].
  intros b Hb. apply elem_of_cons in Hb as [->|Hb].
  - exists ks, vs. cbn [b_msg b_key b_value]. 
    split; [right; left|]. split; [left|]. split; eexists; [right; left|left].
  - destruct (HB b Hb) as (k & v & H1 & H2 & (ck & H3) & (cv & H4)). exists k, v.
    split; [by do 2 right|]. split; [by do 2 right|]. split; eexists; do 2 right; eassumption.
Qed.

Lemma send_all_ok l : forall m bl, MInv m bl -> pool_choices (length (m_encs m)) l ->
  exists m' msgs, send_all m l = Some (m', msgs) /\
    exists new, MInv m' (new ++ bl) /\ 
      Forall2 (fun s msg => exists bs, binary_encode (sn_order s) (sn_span s) = Some bs /\
                 Built msg (le_bytes (u64 (s_trace (sn_span s)))) bs ∈ new) l msgs.
Proof.
  induction l as [|s l IH]; intros m bl HI Hp; cbn [send_all].
  - exists m, []. split; [done|]. exists []. split; [done|]. constructor.
  - destruct Hp as [Hi Hp]. destruct (make_message_ok m bl (sn_enc s) (sn_order s) (sn_span s) HI Hi)
      as (m1 & msg & bs & Hm & Hbs & Hl & HI1). rewrite Hm. rewrite <- Hl in Hp.
    destruct (IH m1 _ HI1 Hp) as (m2 & msgs & Hs & new & HI2 & HF). rewrite Hs. do 2 eexists. split; [reflexivity|].
    exists (new ++ [Built msg (le_bytes (u64 (s_trace (sn_span s)))) bs]). split; [by rewrite <- app_assoc|].
    constructor.
    + exists bs. split; [done|]. apply elem_of_app. right. by apply elem_of_list_singleton.
    + eapply Forall2_impl; [exact HF|]. intros s' msg' (bs' & ? & ?). exists bs'. split; [done|]. apply elem_of_app. by left.
Qed.

Lemma MInv_empty : MInv empty_mem [].
Proof.
  exists [], []. split; [|split].
  - split; [|split]; [intros l x H; by apply not_elem_of_nil in H|done|done].
  - split; [|split]; [intros l x H; by apply not_elem_of_nil in H|done|done].
  - intros b H. by apply not_elem_of_nil in H.
Qed.

(* ---------- key ---------- *)

Lemma le_bytes_spec v : uint64_ok v -> le64 v (le_bytes v).
Proof.
  intros H. split; [done|]. unfold le_bytes. cbn [map].
  rewrite !land255, !Z.shiftr_div_pow2 by lia. split.
  - repeat constructor; unfold byte_ok; apply Z.mod_pos_bound; lia.
  - cbn [foldr]. rewrite u64_id by done. destruct H as [H0 H1].
    change (2^0) with 1. change (2^8) with 256. change (2^16) with 65536. change (2^24) with 16777216.
    change (2^32) with 4294967296. change (2^40) with 1099511627776. change (2^48) with 281474976710656.
    change (2^56) with 72057594037927936. change (2^64) with 18446744073709551616 in H1.
    Z.div_mod_to_equations. lia.
Qed.

Lemma le64_inj v1 v2 k : int64_ok v1 -> int64_ok v2 -> le64 v1 k -> le64 v2 k -> v1 = v2.
Proof. intros H1 H2 (_ & _ & E1) (_ & _ & E2). apply u64_inj_int64; [done|done|congruence]. Qed.

Lemma foldr_le_inj (k1 k2 : bytes) : length k1 = length k2 -> Forall byte_ok k1 -> Forall byte_ok k2 ->
  foldr (fun b acc => b + 256 * acc) 0 k1 = foldr (fun b acc => b + 256 * acc) 0 k2 -> k1 = k2.
Proof.
  revert k2. induction k1 as [|a k1 IH]; intros [|b k2] Hl H1 H2 He; try done.
  apply Forall_cons_1 in H1 as [Ha H1]. apply Forall_cons_1 in H2 as [Hb H2]. cbn [foldr] in He.
  unfold byte_ok in Ha, Hb.
  assert (a = b /\ foldr (fun b acc => b + 256 * acc) 0 k1 = foldr (fun b acc => b + 256 * acc) 0 k2) as [-> He'] by lia.
  f_equal. apply IH; auto.
Qed.

Lemma le64_fun v k1 k2 : le64 v k1 -> le64 v k2 -> k1 = k2.
Proof. intros (? & ? & ?) (? & ? & ?). apply foldr_le_inj; congruence. Qed.

Lemma le64_u64 v k : le64 (u64 v) k <-> le64 v k.
Proof. unfold le64. rewrite (u64_id (u64 v)) by apply u64_ok. done. Qed.

Lemma sent_messages l : pool_choices 0 l ->
  exists m msgs, send_all empty_mem l = Some (m, msgs) /\
    Forall2 (fun s msg => exists bs, binary_encode (sn_order s) (sn_span s) = Some bs /\
      cell_get m (msg_value msg) = bs /\ le64 (s_trace (sn_span s)) (cell_get m (msg_key msg))) l msgs.
Proof.
  intros Hp. destruct (send_all_ok l empty_mem [] MInv_empty Hp) as (m & msgs & Hs & new & HI & HF).
  exists m, msgs. split; [done|]. eapply Forall2_impl; [exact HF|]. intros s msg (bs & Hbs & Hin). exists bs.
  split; [done|]. rewrite app_nil_r in HI. destruct (MInv_get m _ _ HI Hin) as [Hk Hv].
  cbn [b_msg b_key b_value] in Hk, Hv. split; [done|]. rewrite Hk. apply le64_u64, le_bytes_spec, u64_ok.
Qed.

(* ---------- consumer ---------- *)

Lemma decodes_shift v msgs i is cs : Forall (fun j => (S i <= j)%nat) is ->
  Forall2 (fun j s => decodes_to msgs (j - S i) s) is cs -> Forall2 (fun j s => decodes_to (v :: msgs) (j - i) s) is cs.
Proof.
  intros Hall Hc. induction Hc as [|j s' is' cs Hj Hc IHc]; [constructor|].
  apply Forall_cons_1 in Hall as [? ?]. constructor; [|auto].
  replace (j - i)%nat with (S (j - S i)) by lia. done.
Qed.

Lemma consume_spec msgs : forall i, exists is,
  StronglySorted lt is /\ (forall j, j ∈ is -> (i <= j)%nat) /\
  (forall j, (i + j)%nat ∈ is <-> exists s, decodes_to msgs j s) /\
  marks (consume_from i msgs) = is /\
  Forall2 (fun j s => decodes_to msgs (j - i) s) is (callbacks (consume_from i msgs)).
Proof.
  induction msgs as [|v msgs IH]; intros i; cbn [consume_from].
  - exists []. split; [constructor|]. split; [by intros j ?%elem_of_nil|]. split; [|split; [done|constructor]].
    intros j. split; [by intros ?%elem_of_nil|]. intros (s & v & rest & H & _). done.
  - destruct (IH (S i)) as (is & Hs & Hge & Hin & Hm & Hc).
    assert (Hsh : forall j s, decodes_to (v :: msgs) (S j) s <-> decodes_to msgs j s) by done.
    destruct (binary_decode v) as [s rest|e] eqn:E.
    + exists (i :: is). split; [|split; [|split; [|split]]].
      * constructor; [done|]. apply Forall_forall. intros j Hj%Hge. lia.
      * intros j [->|Hj]%elem_of_cons; [lia|]. apply Hge in Hj. lia.
      * intros [|j]; rewrite elem_of_cons.
        -- split; [|intros _; left; lia]. intros _. exists s, v, rest. done.
        -- replace (i + S j)%nat with (S i + j)%nat by lia. rewrite Hin. setoid_rewrite Hsh.
           split; [|tauto]. intros [?|?]; [lia|done].
      * cbn. by rewrite <- Hm.
      * cbn. constructor; [rewrite Nat.sub_diag; by exists v, rest|].
        assert (Hall : Forall (fun j => (S i <= j)%nat) is) by (apply Forall_forall; exact Hge).
        by apply decodes_shift.
    + exists is. split; [done|]. split; [intros j Hj%Hge; lia|]. split; [|split; [done|]].
      * intros [|j].
        -- split; [intros Hj%Hge; lia|]. intros (s & v' & rest & Hv & Hd). cbn in Hv. injection Hv as <-. congruence.
        -- replace (i + S j)%nat with (S i + j)%nat by lia. rewrite Hin. done.
      * assert (Hall : Forall (fun j => (S i <= j)%nat) is) by (apply Forall_forall; exact Hge).
        by apply decodes_shift.
Qed.

Lemma consume_exact msgs : exists is,
  StronglySorted lt is /\ (forall i, i ∈ is <-> exists s, decodes_to msgs i s) /\
  marks (consume msgs) = is /\ Forall2 (decodes_to msgs) is (callbacks (consume msgs)).
Proof.
  destruct (consume_spec msgs 0) as (is & H1 & _ & H2 & H3 & H4). exists is. split; [done|]. split; [exact H2|]. split; [done|].
  eapply Forall2_impl; [exact H4|]. intros j s H. cbv beta in H. by rewrite Nat.sub_0_r in H.
Qed.

Lemma consume_prefix msgs : forall i pre post, consume_from i msgs = pre ++ post ->
  (length (marks pre) <= length (callbacks pre) <= S (length (marks pre)))%nat.
Proof.
  induction msgs as [|v msgs IH]; intros i pre post; cbn [consume_from].
  - destruct pre; [cbn; lia|done].
  - destruct (binary_decode v) as [s rest|e]; [|apply IH].
    destruct pre as [|e1 pre]; [cbn; lia|]. cbn [app]. intros [= <- H].
    destruct pre as [|e2 pre]; [cbn; lia|]. cbn [app] in H. injection H as <- H.
    apply IH in H. cbn. unfold marks, callbacks in H. lia.
Qed.

Lemma consume_prefix_0 msgs pre post : consume msgs = pre ++ post ->
  (length (marks pre) <= length (callbacks pre) <= S (length (marks pre)))%nat.
Proof. apply consume_prefix. Qed.

Lemma consume_encoded spans vals :
  Forall2 (fun s v => exists order, wire_ok s /\ iteration_order order (s_tags s) /\ binary_encode order s = Some v) spans vals ->
  forall i, callbacks (consume_from i vals) = spans /\ marks (consume_from i vals) = seq i (length vals).
Proof.
  induction 1 as [|s v spans vals (order & Hw & Ho & He) _ IH]; intros i; cbn [consume_from]; [done|].
  destruct (binary_roundtrip s order Hw Ho) as (bs & Hbs & Hr). rewrite He in Hbs. injection Hbs as <-.
  specialize (Hr []). rewrite app_nil_r in Hr. rewrite Hr. destruct (IH (S i)) as [H1 H2]. cbn. unfold callbacks, marks in *.
  by rewrite H1, H2.
Qed.

(** Whole path: send, then consume what Kafka reads. *)
Lemma kafka_transparent l m msgs : 
  Forall (fun s => wire_ok (sn_span s) /\ iteration_order (sn_order s) (s_tags (sn_span s))) l ->
  pool_choices 0 l -> send_all empty_mem l = Some (m, msgs) ->
  callbacks (consume (map (fun msg => cell_get m (msg_value msg)) msgs)) = map sn_span l /\
  marks (consume (map (fun msg => cell_get m (msg_value msg)) msgs)) = seq 0 (length l).
Proof.
  intros Hw Hp Hs. destruct (sent_messages l Hp) as (m' & msgs' & Hs' & HF). rewrite Hs in Hs'. injection Hs' as <- <-.
  assert (Hlen : length l = length msgs) by (by eapply Forall2_length).
  destruct (consume_encoded (map sn_span l) (map (fun msg => cell_get m (msg_value msg)) msgs)) with (i := 0%nat) as [H1 H2].
  - clear Hs Hp Hlen. induction HF as [|s msg l msgs (bs & Hbs & Hv & _) HF IH]; [constructor|].
    apply Forall_cons_1 in Hw as [[? ?] ?]. cbn [map]. constructor; [|auto].
    exists (sn_order s). split; [done|]. split; [done|]. by rewrite Hv.
  - split; [exact H1|]. rewrite map_length, <- Hlen in H2. exact H2.
Qed.

Lemma sent_keys l m msgs : pool_choices 0 l -> send_all empty_mem l = Some (m, msgs) ->
  forall i j si sj mi mj, l !! i = Some si -> l !! j = Some sj -> msgs !! i = Some mi -> msgs !! j = Some mj ->
  int64_ok (s_trace (sn_span si)) -> int64_ok (s_trace (sn_span sj)) ->
  (cell_get m (msg_key mi) = cell_get m (msg_key mj) <-> s_trace (sn_span si) = s_trace (sn_span sj)).
Proof.
  intros Hp Hs i j si sj mi mj Hi Hj Hmi Hmj Hoi Hoj.
  destruct (sent_messages l Hp) as (m' & msgs' & Hs' & HF). rewrite Hs in Hs'. injection Hs' as <- <-.
  destruct (Forall2_lookup_lr _ _ _ _ _ _ HF Hi Hmi) as (bi & _ & _ & Ki).
  destruct (Forall2_lookup_lr _ _ _ _ _ _ HF Hj Hmj) as (bj & _ & _ & Kj). split.
  - intros E. rewrite E in Ki. by eapply le64_inj.
  - intros E. rewrite E in Ki. by eapply le64_fun.
Qed.
