(** The work of the parsers is paid for by the bytes and the pieces that are left. *)
From Verif Require Import Base IdModel SpanModel JsonModel CodecModel JsonPure JsonProofs JsonSim JsonSafe CostModel CostErase.

Local Open Scope nat_scope.

(** Bytes that have not been consumed: in the buffer, and in the reader. *)
Definition unread (st : pstate) : nat := available st + length (concat (r_chunks (p_src st))).
Definition pot (st : pstate) : nat := 2 * left st + 8 * unread st.
Definition good (st : pstate) : Prop := wf st /\ 5 <= length (p_buf st).
Definition good1 (st : pstate) : Prop := good st /\ 0 < available st.

Lemma splice_nil buf i : splice buf i [] = buf.
Proof. unfold splice. cbn [length app]. rewrite Nat.add_0_r. apply take_drop. Qed.

Lemma src_read_left s m : let '(got, err, s') := src_read s m in
  length (r_chunks s') + length (concat (r_chunks s')) + length got <= length (r_chunks s) + length (concat (r_chunks s)) /\
  length (concat (r_chunks s')) + length got = length (concat (r_chunks s)) /\
  (1 + length (r_chunks s') + length (concat (r_chunks s')) <= length (r_chunks s) + length (concat (r_chunks s)) \/
   got = [] /\ (r_chunks s = [] /\ err <> RNil \/ m = 0 /\ s' = s /\ concat (r_chunks s) <> [] /\ err = RNil)).
Proof.
  unfold src_read. destruct s as [[|c cs] e]; cbn [r_chunks r_end].
  - split; [cbn; lia|]. split; [cbn; lia|]. right. split; [done|]. left. split; [done|]. by destruct e.
  - pose proof (take_length c m) as Ht. pose proof (drop_length c m) as Hd. rewrite concat_cons, app_length.
    destruct (drop m c) as [|x d] eqn:Ed; cbn [length] in *.
    + split; [cbn [length]; lia|]. split; [lia|]. left. cbn [length]. lia.
    + rewrite concat_cons, app_length. cbn [length]. split; [lia|]. split; [lia|].
      destruct m as [|m]; [|left; lia]. right. cbn [take]. split; [done|]. right.
      rewrite drop_0 in Ed. subst c. done.
Qed.

(** What a refill costs. *)
Definition moved (st : pstate) : nat := if 0 <? p_tail st then available st else 0.
Lemma buffer_more_cost st : good st ->
  match (c_buffer_more st).1 with
  | POk _ st' => good st' /\ p_tail st' = 0 /\ available st <= available st' /\ unread st' = unread st /\ left st' <= left st /\
      ((c_buffer_more st).2 + 2 * left st' <= 2 * left st + moved st \/
       (available st = length (p_buf st) /\ st' = st /\ p_tail st = 0 /\ buffer_more st = POk tt st))
  | PErr => (c_buffer_more st).2 <= moved st + 1 + 2 * left st
  | _ => False
  end.
Proof.
  intros [[H1 H2] H5]. pose proof (buffer_more_erase st) as He. destruct (p_eof st) eqn:Eeof; [unfold c_buffer_more in *; rewrite Eeof; cbn; lia|].
  unfold c_buffer_more in *. rewrite Eeof in *.
  replace ((0 <? p_tail st) && negb ((p_tail st <=? p_head st) && (p_head st <=? length (p_buf st)))) with false in * by lia.
  set (X := if 0 <? p_tail st then (PState _ _ _ _ _, _) else _) in *.
  assert (K : p_tail X.1 = 0 /\ p_head X.1 = available st /\ length (p_buf X.1) = length (p_buf st) /\ p_src X.1 = p_src st /\
    X.2 = moved st /\ (p_tail st = 0 -> X.1 = st)).
  { unfold X, moved. destruct (Nat.ltb_spec 0 (p_tail st)) as [Ht|Ht]; cbn [fst snd p_tail p_head p_buf p_src].
    - split; [done|]. split; [done|]. split; [|split; [done|split; [done|lia]]]. apply length_splice. rewrite take_length, drop_length. unfold available. lia.
    - unfold available. split; [lia|]. split; [lia|done]. }
  clearbody X. destruct X as [st1 mv]. cbn [fst snd] in K. destruct K as (Kt & Kh & Kl & Ks & -> & Kst).
  rewrite Kh, Kl, Ks in *. replace (length (p_buf st) <? available st) with false in * by (unfold available; lia).
  pose proof (src_read_length (p_src st) (length (p_buf st) - available st)) as Hr.
  pose proof (src_read_left (p_src st) (length (p_buf st) - available st)) as Hc.
  destruct (src_read (p_src st) (length (p_buf st) - available st)) as [[got err] src]. cbn [fst] in Hr.
  destruct Hc as (C1 & C2 & C3).
  assert (Ha : available st <= length (p_buf st)) by (unfold available; lia).
  assert (HL : forall e, let st' := PState src (splice (p_buf st1) (available st) got) (p_tail st1) (available st + length got) e in
    good st' /\ p_tail st' = 0 /\ available st <= available st' /\ unread st' = unread st /\ left st' <= left st).
  { intros e st'. assert (Hav : available st' = available st + length got) by (unfold available at 1, st'; cbn [p_head p_tail]; lia).
    split; [split|].
    - unfold wf, st'; cbn [p_tail p_head p_buf]. rewrite length_splice by lia. lia.
    - unfold st'; cbn [p_buf]. rewrite length_splice by lia. lia.
    - split; [exact Kt|]. split; [lia|]. split; [unfold unread; rewrite Hav; cbn [st' p_src]; lia|]. unfold left, st'; cbn [p_src]. lia. }
  assert (HL2 : forall e, left (PState src (splice (p_buf st1) (available st) got) (p_tail st1) (available st + length got) e) =
    length (r_chunks src) + length (concat (r_chunks src))) by done.
  assert (HL3 : left st = length (r_chunks (p_src st)) + length (concat (r_chunks (p_src st)))) by done.
  destruct err; cbn [fst snd] in *.
  - destruct (HL false) as (G1 & G2 & G3 & G4 & G5). split; [done|]. split; [done|]. split; [done|]. split; [done|]. split; [done|].
    destruct C3 as [C3|[-> [[_ C3]|(C3 & -> & _)]]]; [left; rewrite HL2, HL3; lia|done|].
    destruct (Nat.eq_dec (p_tail st) 0) as [Et|Et].
    + right. rewrite (Kst Et) in *. split; [lia|]. rewrite splice_nil in *. cbn [length] in *. rewrite Nat.add_0_r in *.
      assert (Es : PState (p_src st) (p_buf st) (p_tail st) (available st) false = st).
      { destruct st; cbn in *; subst. unfold available; cbn. by rewrite Nat.sub_0_r. }
      rewrite Es in *. done.
    + unfold available in *. lia.
  - destruct got as [|g got]; cbn [fst snd]; [lia|].
    destruct (HL true) as (G1 & G2 & G3 & G4 & G5). split; [done|]. split; [done|]. split; [done|]. split; [done|]. split; [done|].
    left. destruct C3 as [C3|[C3 _]]; [|done]. rewrite HL2, HL3. lia.
  - lia.
Qed.

(** ---------- scanning ---------- *)
Lemma scan_space_cost : forall k buf t, t + k <= length buf ->
  match c_scan_space k buf t with
  | (Some (t', true), w) => t <= t' < t + k /\ w + t = t' + 1
  | (Some (t', false), w) => t' = t + k /\ w = k
  | (None, _) => False
  end.
Proof.
  induction k as [|k IH]; intros buf t Ht; cbn [c_scan_space]; [lia|].
  destruct (buf !! t) as [b|] eqn:Eb; [|apply lookup_ge_None in Eb; lia]. destruct (is_space b); [|lia].
  specialize (IH buf (S t) ltac:(lia)). destruct (c_scan_space k buf (S t)) as [[[t' []]|] w]; cbn [fst snd]; lia.
Qed.

Lemma good_tail t st : good st -> p_tail st <= t <= p_head st -> good (set_tail t st).
Proof. intros [[? ?] ?] ?. split; [split|]; cbn; lia. Qed.
Lemma left_set_tail t st : left (set_tail t st) = left st.
Proof. done. Qed.
Lemma unread_set_tail t st : p_tail st <= t <= p_head st -> unread (set_tail t st) + t = unread st + p_tail st.
Proof. intros H. unfold unread, available. cbn [set_tail p_head p_tail p_src]. lia. Qed.

Lemma space_cost : forall fuel st, good st ->
  match (c_skip_whitespace fuel st).1 with
  | POk _ st' => good1 st' /\ unread st' <= unread st /\
      (c_skip_whitespace fuel st).2 + 2 * left st' + unread st' <= 2 * left st + unread st + 1
  | PErr => (c_skip_whitespace fuel st).2 <= 2 * left st + unread st + 1
  | PPanic => False
  | PHang => True
  end.
Proof.
  induction fuel as [|fuel IH]; intros st Hg; pose proof Hg as [[H1 H2] H3]; cbn [c_skip_whitespace];
    pose proof (scan_space_cost (available st) (p_buf st) (p_tail st) ltac:(unfold available; lia)) as Hs;
    destruct (c_scan_space (available st) (p_buf st) (p_tail st)) as [[[t []]|] w]; cbn [fst snd work]; try done.
  1,2: destruct Hs as [Ht Hw]; pose proof (unread_set_tail t st ltac:(unfold available in *; lia)) as Hu;
    (split; [split; [apply good_tail; [done|unfold available in *; lia]|unfold available in *; cbn; lia]|]);
    rewrite left_set_tail; lia.
  destruct Hs as [Ht ->]. pose proof (unread_set_tail t st ltac:(unfold available in *; lia)) as Hu.
  assert (Ha : available (set_tail t st) = 0) by (unfold available in *; cbn; lia).
  pose proof (buffer_more_cost (set_tail t st) ltac:(apply good_tail; [done|unfold available in *; lia])) as Hb.
  assert (Hm : moved (set_tail t st) = 0) by (unfold moved; rewrite Ha; by destruct (_ <? _)).
  rewrite left_set_tail, Hm in Hb. unfold cbind. destruct (c_buffer_more (set_tail t st)) as [[[] st1| | |] w1]; cbn [fst snd] in *; try done; [|lia].
  destruct Hb as (G1 & _ & _ & G2 & G3 & G4).
  assert (Hw1 : w1 + 2 * left st1 <= 2 * left st) by (destruct G4 as [G4|[G4 _]]; [lia|cbn in G4; unfold available in *; cbn in *; lia]).
  specialize (IH st1 G1). destruct (c_skip_whitespace fuel st1) as [[[] st2| | |] w2]; cbn [fst snd] in *; try done.
  - destruct IH as (I1 & I2 & I3). split; [done|]. split; lia.
  - lia.
Qed.

(** ---------- a cost with what is left afterwards ---------- *)
(** Success: the work and what is left are what was left, plus [c], minus [g]; failure: the work is what was left plus [e]. *)
Definition pays {A} (P : A -> pstate -> Prop) (g c e : nat) (st : pstate) (r : pres A * nat) : Prop :=
  match r.1 with
  | POk a st' => P a st' /\ r.2 + pot st' + g <= pot st + c
  | PErr => r.2 <= pot st + e
  | PPanic => False
  | PHang => True
  end.
Lemma pays_bind {A B} (P : A -> pstate -> Prop) (Q : B -> pstate -> Prop) g1 c1 e1 g2 c2 e2 g c e st r f :
  pays P g1 c1 e1 st r -> (forall a st', P a st' -> pays Q g2 c2 e2 st' (f a st')) ->
  c1 + c2 + g <= c + g1 + g2 -> e1 <= e -> c1 + e2 <= e + g1 -> pays Q g c e st (cbind r f).
Proof.
  intros H1 H2 Hc He He2. unfold pays, cbind in *. destruct r as [[a st1| | |] w]; cbn [fst snd] in *; try done; [|lia].
  destruct H1 as [HP H1]. specialize (H2 a st1 HP). destruct (f a st1) as [[b st2| | |] w2]; cbn [fst snd] in *; try done; [|lia].
  destruct H2 as [HQ H2]. split; [done|lia].
Qed.
Lemma pays_mono {A} (P Q : A -> pstate -> Prop) g c e g' c' e' st r :
  pays P g c e st r -> (forall a st', P a st' -> Q a st') -> c + g' <= c' + g -> e <= e' -> pays Q g' c' e' st r.
Proof. intros H HP Hc He. unfold pays in *. destruct r as [[] w]; cbn [fst snd] in *; try done; [|lia]. destruct H as [H H']. split; [auto|lia]. Qed.

Definition is_good {A} (_ : A) (st : pstate) : Prop := good st.
Definition is_good1 {A} (_ : A) (st : pstate) : Prop := good1 st.

Lemma space_pays fuel st : good st -> pays is_good1 0 1 1 st (c_skip_whitespace fuel st).
Proof.
  intros H. pose proof (space_cost fuel st H) as Hs. unfold pays, pot. destruct (c_skip_whitespace fuel st) as [[] w]; cbn [fst snd] in *; try done; [|lia].
  destruct Hs as (? & ? & ?). split; [done|lia].
Qed.
Lemma current_pays st : good1 st -> pays (fun _ st' => st' = st) 0 1 1 st (c_current st).
Proof.
  intros [[[H1 H2] _] H3]. unfold pays, c_current, current. cbn [fst snd]. destruct (p_buf st !! p_tail st) eqn:E; [split; [done|lia]|].
  apply lookup_ge_None in E. unfold available in H3. lia.
Qed.
Lemma next_pays fuel st : good st -> pays is_good1 0 2 2 st (c_next_type fuel st).
Proof.
  intros H. apply (pays_bind is_good1 is_good1 0 1 1 0 1 1); [by apply space_pays| |lia|lia|lia].
  intros [] st1 H1. apply (pays_bind (fun _ st' => st' = st1) is_good1 0 1 1 0 0 0); [by apply current_pays| |lia|lia|lia].
  intros b ? ->. unfold pays. cbn [fst snd]. destruct (symbol b); try (split; [done|lia]). lia.
Qed.
Lemma consume1_pays ty st : good1 st -> pays is_good 7 0 1 st (c_consume1 ty st).
Proof.
  intros H. apply (pays_bind (fun _ st' => st' = st) is_good 0 1 1 8 0 0); [by apply current_pays| |lia|lia|lia].
  intros b ? ->. unfold pays. cbn [fst snd]. destruct (decide _); [|lia]. destruct H as [Hg Ha]. split.
  - apply good_tail; [done|]. unfold available in Ha. lia.
  - pose proof (unread_set_tail (S (p_tail st)) st ltac:(unfold available in Ha; lia)). unfold pot. rewrite left_set_tail. lia.
Qed.
Lemma consume_pays fuel ty st : good st -> pays is_good 6 0 2 st (c_consume fuel ty st).
Proof. intros H. apply (pays_bind is_good1 is_good 0 1 1 7 0 1); [by apply space_pays| |lia|lia|lia]. intros. by apply consume1_pays. Qed.

(** ---------- strings ---------- *)
Lemma length_encode_rune r : length (encode_rune r) <= 3.
Proof. unfold encode_rune. destruct (_ <=? _)%Z; [cbn; lia|]. destruct (_ <=? _)%Z; [cbn; lia|]. destruct (_ && _); cbn; lia. Qed.
Lemma decode_cost : forall fuel mem idx w, idx <= length mem ->
  (c_decode_in_place fuel mem idx w).2 <= 2 * (length mem - idx).
Proof.
  induction fuel as [|fuel IH]; intros mem idx w Hi; cbn [c_decode_in_place]; destruct (Nat.leb_spec (length mem) idx); cbn [snd]; try lia.
  destruct (mem !! idx) as [ch|]; [|cbn; lia]. destruct (negb _).
  { destruct (_ <? _); cbn [snd]; [|lia]. specialize (IH (<[w:=ch]> mem) (S idx) (S w)). rewrite insert_length in IH. lia. }
  destruct (Nat.leb_spec (length mem) (idx + 1)); cbn [snd]; [lia|]. destruct (mem !! (idx + 1)) as [ch'|]; [|cbn; lia]. destruct (negb _).
  { destruct (_ <? _); cbn [snd]; [|lia]. specialize (IH (<[w:=ch']> mem) (idx + 2) (S w)). rewrite insert_length in IH. lia. }
  destruct (Nat.leb_spec (length mem) (idx + 1 + 4)); cbn [snd]; [lia|].
  destruct (mem !! (idx + 2)), (mem !! (idx + 3)), (mem !! (idx + 4)), (mem !! (idx + 5)); cbn [snd]; try lia.
  destruct (hex_digit _); cbn [snd]; [|lia]. destruct (hex_digit _); cbn [snd]; [|lia]. destruct (hex_digit _); cbn [snd]; [|lia]. destruct (hex_digit _); cbn [snd]; [|lia].
  destruct (Nat.ltb_spec (length mem) (w + 4)); cbn [snd]; [lia|].
  match goal with |- context [encode_rune ?x] => set (enc := encode_rune x); pose proof (length_encode_rune x) as He; fold enc in He end.
  specialize (IH (splice mem w enc) (idx + 6) (w + length enc)). rewrite length_splice in IH by lia. lia.
Qed.

Lemma scan_string_cost : forall k buf t n esc has, t + n + k <= length buf ->
  match c_scan_string k buf t n esc has with
  | (SFound n' _, w) => n <= n' < n + k /\ w + n = n' + 1
  | (SMore _ _, w) => w = k
  | (SPanic, _) => False
  end.
Proof.
  induction k as [|k IH]; intros buf t n esc has Hl; cbn [c_scan_string]; [done|].
  destruct (buf !! (t + n)) as [ch|] eqn:Eb; [|apply lookup_ge_None in Eb; lia].
  assert (Hrec : forall e h, match ((c_scan_string k buf t (S n) e h).1, S (c_scan_string k buf t (S n) e h).2) with
    | (SFound n' _, w) => n <= n' < n + S k /\ w + n = n' + 1 | (SMore _ _, w) => w = S k | (SPanic, _) => False end).
  { intros e h. specialize (IH buf t (S n) e h ltac:(lia)). destruct (c_scan_string k buf t (S n) e h) as [[]]; cbn [fst snd]; [lia|lia|done]. }
  destruct esc; [apply Hrec|]. destruct (ch =? ch_backslash)%Z; [apply Hrec|]. destruct (ch =? ch_quote)%Z; [lia|apply Hrec].
Qed.

Lemma string_stuck st : buffer_more st = POk tt st -> forall fuel esc has, read_string_loop fuel st (available st) esc has = PHang.
Proof.
  intros H. induction fuel as [|fuel IH]; intros esc has; cbn [read_string_loop]; rewrite Nat.sub_diag; cbn [scan_string]; [done|].
  rewrite H. cbn [pbind]. rewrite Nat.add_0_r. apply IH.
Qed.

Definition extra (st : pstate) (n : nat) : nat := if 0 <? p_tail st then n else 0.
Lemma string_loop_cost : forall fuel st n esc has, good st -> n <= available st ->
  match c_read_string_loop fuel st n esc has with
  | (POk tok st', w) => good st' /\ exists nf, n <= nf /\ unread st' + nf + 1 = unread st /\ length (t_val tok) <= nf /\
      w + 2 * left st' + n <= 2 * left st + 3 * nf + 1 + extra st nf
  | (PErr, w) => w + n <= 2 * left st + 3 * unread st + 1 + extra st (unread st)
  | (PPanic, _) => False
  | (PHang, _) => True
  end.
Proof.
  assert (Hfound : forall st n n' (has : bool), good st -> n <= n' < available st ->
    let r := if length (p_buf st) <? p_tail st + n' then (PPanic, 0) else
      let value := take n' (drop (p_tail st) (p_buf st)) in
      if has : bool then
        let d := c_decode_in_place n' value 0 0 in
        (match d.1 with
         | DecOk mem w =>
             POk (Token TString (take w mem))
                 (PState (p_src st) (splice (p_buf st) (p_tail st) mem) (p_tail st + n' + 1) (p_head st) (p_eof st))
         | DecErr => PErr
         | DecPanic => PPanic
         | DecFuel => PHang
         end, d.2)
      else (POk (Token TString value) (set_tail (p_tail st + n' + 1) st), 0) in
    match r with
    | (POk tok st', w) => good st' /\ unread st' + n' + 1 = unread st /\ length (t_val tok) <= n' /\ left st' = left st /\ w <= 2 * n'
    | (PErr, w) => w <= 2 * n' /\ n' + 1 <= unread st
    | (PPanic, _) => False
    | (PHang, _) => True
    end).
  { intros st n n' has Hg Hn. pose proof Hg as [[H1 H2] H3]. cbv zeta.
    replace (length (p_buf st) <? p_tail st + n') with false by (unfold available in *; lia).
    set (value := take n' (drop (p_tail st) (p_buf st))).
    assert (Hlen : length value = n') by (unfold value; rewrite take_length, drop_length; unfold available in *; lia).
    pose proof (unread_set_tail (p_tail st + n' + 1) st ltac:(unfold available in *; lia)) as Hu.
    destruct has.
    - pose proof (decode_cost n' value 0 0 ltac:(lia)) as Hd. rewrite Hlen in Hd. rewrite decode_erase.
      pose proof (decode_in_place_0 value) as HD. rewrite Hlen in HD. destruct (unescape value).
      + destruct HD as (mem' & -> & Hl' & _). split; [|split; [|split; [|split; [done|lia]]]].
        * split; [split|]; cbn [p_tail p_head p_buf]; rewrite ?length_splice by (unfold available in *; lia); unfold available in *; lia.
        * unfold unread, available in *. cbn [p_src p_head p_tail set_tail] in *. lia.
        * cbn [t_val]. rewrite take_length. lia.
      + rewrite HD. split; [lia|]. unfold unread. lia.
    - split; [apply good_tail; [done|unfold available in *; lia]|]. split; [lia|]. split; [cbn [t_val]; lia|]. split; [done|lia]. }
  induction fuel as [|fuel IH]; intros st n esc has Hg Hn; pose proof Hg as [[H1 H2] H3]; cbn [c_read_string_loop].
  all: pose proof (scan_string_cost (available st - n) (p_buf st) (p_tail st) n esc has ltac:(unfold available in *; lia)) as Hs;
    destruct (c_scan_string (available st - n) (p_buf st) (p_tail st) n esc has) as [[n' has'|esc' has'|] w]; cbn [fst snd work]; [| |done].
  1,3: destruct Hs as [Hs1 Hs2]; specialize (Hfound st n n' has' Hg ltac:(lia)); cbv zeta in Hfound; unfold work;
    match goal with |- context [fst ?r] => destruct r as [[tok st'| | |] w'] end; cbn [fst snd] in *; try done;
    [destruct Hfound as (F1 & F2 & F3 & F4 & F5); split; [done|]; exists n'; unfold extra; destruct (_ <? _); lia
    |unfold extra; destruct (_ <? _); lia].
  - done.
  - subst w. rewrite (Nat.add_comm n), Nat.sub_add by done. pose proof (buffer_more_cost st Hg) as Hb. unfold work, cbind.
    assert (Hun : available st <= unread st) by (unfold unread; lia).
    destruct (c_buffer_more st) as [[[] st1| | |] w1]; cbn [fst snd] in *; try done;
      [|unfold moved, extra in *; destruct (_ <? _); lia].
    destruct Hb as (G1 & G2 & G3 & G4 & G5 & G6).
    specialize (IH st1 (available st) esc' has' G1 G3).
    destruct G6 as [G6|(G6 & -> & G7 & G8)].
    + destruct (c_read_string_loop fuel st1 (available st) esc' has') as [[tok st2| | |] w2]; cbn [fst snd] in *; try done.
      * destruct IH as (I1 & nf & I2 & I3 & I4 & I5). split; [done|]. exists nf. unfold extra in I5. rewrite G2 in I5. cbn in I5. unfold moved, extra in *. destruct (_ <? _); lia.
      * unfold extra in IH. rewrite G2 in IH. cbn in IH. unfold moved, extra in *. destruct (_ <? _); lia.
    + pose proof (string_loop_erase fuel st (available st) esc' has') as He. rewrite (string_stuck st G8) in He.
      destruct (c_read_string_loop fuel st (available st) esc' has') as [r w2]. cbn [fst] in He. by subst r.
Qed.

(** A token that is handed over is looked at once more. *)
Definition handed (t : token) (st : pstate) : Prop := True.
Lemma string_cost fuel st : good1 st ->
  match c_read_string fuel st with
  | (POk tok st', w) => good st' /\ w + length (t_val tok) + pot st' + 14 <= pot st + 0
  | (PErr, w) => w <= pot st + 2
  | (PPanic, _) => False
  | (PHang, _) => True
  end.
Proof.
  intros Hg. pose proof (current_pays st Hg) as Hc. unfold c_read_string, cbind. unfold pays in Hc.
  destruct Hg as [Hg Ha]. unfold c_current in *. cbn [fst snd] in *. destruct (current st) as [ch st0| | |]; try done; [|cbn [fst snd] in *; lia].
  destruct Hc as [-> _]. destruct (negb _); cbn [fst snd]; [lia|].
  pose proof (string_loop_cost fuel (set_tail (S (p_tail st)) st) 0 false false ltac:(apply good_tail; [done|unfold available in Ha; lia]) ltac:(lia)) as Hl.
  pose proof (unread_set_tail (S (p_tail st)) st ltac:(unfold available in Ha; lia)) as Hu. rewrite left_set_tail in Hl.
  destruct (c_read_string_loop fuel _ 0 false false) as [[tok st'| | |] w]; cbn [fst snd] in *; try done.
  - destruct Hl as (I1 & nf & I2 & I3 & I4 & I5). split; [done|]. unfold pot. unfold extra in I5. destruct (_ <? _); lia.
  - unfold pot. unfold extra in Hl. destruct (_ <? _); lia.
Qed.
Lemma string_pays fuel st : good1 st -> pays is_good 14 0 2 st (c_read_string fuel st).
Proof. intros H. pose proof (string_cost fuel st H) as Hs. unfold pays. destruct (c_read_string fuel st) as [[] w]; cbn [fst snd]; try done. destruct Hs. split; [done|lia]. Qed.

(** ---------- numbers ---------- *)
Lemma scan_number_cost : forall k buf t n, t + n + k <= length buf ->
  match c_scan_number k buf t n with
  | (NFound n', w) => n <= n' < n + k /\ w + n = n' + 1
  | (NMore, w) => w = k
  | (NPanic, _) => False
  end.
Proof.
  induction k as [|k IH]; intros buf t n Hl; cbn [c_scan_number]; [done|].
  destruct (buf !! (t + n)) as [ch|] eqn:Eb; [|apply lookup_ge_None in Eb; lia].
  destruct (is_number_char ch); [|lia]. specialize (IH buf t (S n) ltac:(lia)).
  destruct (c_scan_number k buf t (S n)) as [[] w]; cbn [fst snd]; [lia|lia|done].
Qed.
Lemma number_stuck st : buffer_more st = POk tt st -> forall fuel, read_number_loop fuel st (available st) = PHang.
Proof.
  intros H. induction fuel as [|fuel IH]; cbn [read_number_loop]; rewrite Nat.sub_diag; cbn [scan_number]; [done|].
  rewrite H. cbn [pbind]. rewrite Nat.add_0_r. apply IH.
Qed.
Lemma number_loop_cost : forall fuel st n, good st -> n <= available st ->
  match c_read_number_loop fuel st n with
  | (POk tok st', w) => good st' /\ exists nf, n <= nf /\ unread st' + nf = unread st /\ length (t_val tok) <= nf /\
      w + 2 * left st' + n <= 2 * left st + nf + 1 + extra st nf
  | (PErr, w) => w + n <= 2 * left st + unread st + 1 + extra st (unread st)
  | (PPanic, _) => False
  | (PHang, _) => True
  end.
Proof.
  induction fuel as [|fuel IH]; intros st n Hg Hn; pose proof Hg as [[H1 H2] H3]; cbn [c_read_number_loop].
  all: pose proof (scan_number_cost (available st - n) (p_buf st) (p_tail st) n ltac:(unfold available in *; lia)) as Hs;
    destruct (c_scan_number (available st - n) (p_buf st) (p_tail st) n) as [[n'| |] w]; cbn [fst snd work]; [| |done].
  1,3: destruct Hs as [Hs1 Hs2]; replace (length (p_buf st) <? p_tail st + n') with false by (unfold available in *; lia);
    pose proof (unread_set_tail (p_tail st + n') st ltac:(unfold available in *; lia)) as Hu; cbn [fst snd work];
    (split; [apply good_tail; [done|unfold available in *; lia]|]); exists n'; rewrite left_set_tail; cbn [t_val]; rewrite take_length;
    unfold extra; destruct (_ <? _); lia.
  - done.
  - subst w. rewrite (Nat.add_comm n), Nat.sub_add by done. pose proof (buffer_more_cost st Hg) as Hb. unfold work, cbind.
    assert (Hun : available st <= unread st) by (unfold unread; lia).
    destruct (c_buffer_more st) as [[[] st1| | |] w1]; cbn [fst snd] in *; try done;
      [|unfold moved, extra in *; destruct (_ <? _); lia].
    destruct Hb as (G1 & G2 & G3 & G4 & G5 & G6).
    specialize (IH st1 (available st) G1 G3).
    destruct G6 as [G6|(G6 & -> & G7 & G8)].
    + destruct (c_read_number_loop fuel st1 (available st)) as [[tok st2| | |] w2]; cbn [fst snd] in *; try done.
      * destruct IH as (I1 & nf & I2 & I3 & I4 & I5). split; [done|]. exists nf. unfold extra in I5. rewrite G2 in I5. cbn in I5. unfold moved, extra in *. destruct (_ <? _); lia.
      * unfold extra in IH. rewrite G2 in IH. cbn in IH. unfold moved, extra in *. destruct (_ <? _); lia.
    + pose proof (number_loop_erase fuel st (available st)) as He. rewrite (number_stuck st G8) in He.
      destruct (c_read_number_loop fuel st (available st)) as [r w2]. cbn [fst] in He. by subst r.
Qed.
Lemma number_cost fuel st : good1 st ->
  match c_read_number fuel st with
  | (POk tok st', w) => good st' /\ w + length (t_val tok) + pot st' + 4 <= pot st
  | (PErr, w) => w <= pot st + 2
  | (PPanic, _) => False
  | (PHang, _) => True
  end.
Proof.
  intros Hg. pose proof (current_pays st Hg) as Hc. unfold c_read_number, cbind. unfold pays in Hc.
  destruct Hg as [Hg Ha]. unfold c_current in *. cbn [fst snd] in *. destruct (current st) as [ch st0| | |]; try done; [|cbn [fst snd] in *; lia].
  destruct Hc as [-> _]. destruct (negb _); cbn [fst snd]; [lia|].
  pose proof (number_loop_cost fuel st 1 Hg ltac:(lia)) as Hl.
  destruct (c_read_number_loop fuel st 1) as [[tok st'| | |] w]; cbn [fst snd] in *; try done.
  - destruct Hl as (I1 & nf & I2 & I3 & I4 & I5). split; [done|]. unfold pot. unfold extra in I5. destruct (_ <? _); lia.
  - unfold pot. unfold extra in Hl. destruct (_ <? _); lia.
Qed.
Lemma number_pays fuel st : good1 st -> pays is_good 5 0 2 st (c_read_number fuel st).
Proof.
  intros Hg. pose proof (current_pays st Hg) as Hc. unfold pays, c_read_number, cbind in *.
  destruct Hg as [Hg Ha]. unfold c_current in *. cbn [fst snd] in *. destruct (current st) as [ch st0| | |]; try done; [|cbn [fst snd] in *; lia].
  destruct Hc as [-> _]. destruct (negb _); cbn [fst snd]; [lia|].
  pose proof (number_loop_cost fuel st 1 Hg ltac:(lia)) as Hl.
  destruct (c_read_number_loop fuel st 1) as [[tok st'| | |] w]; cbn [fst snd] in *; try done.
  - destruct Hl as (I1 & nf & I2 & I3 & I4 & I5). split; [done|]. unfold pot. unfold extra in I5. destruct (_ <? _); lia.
  - unfold pot. unfold extra in Hl. destruct (_ <? _); lia.
Qed.

(** ---------- null, true, false ---------- *)
Lemma require_cost n : n <= 5 -> forall fuel st, good st ->
  match c_require fuel st n with
  | (POk _ st', w) => good st' /\ n <= available st' /\ unread st' = unread st /\ w + 2 * left st' <= 2 * left st + (if n <=? available st then 0 else moved st)
  | (PErr, w) => w <= moved st + 1 + 2 * left st
  | (PPanic, _) => False
  | (PHang, _) => True
  end.
Proof.
  intros Hn. induction fuel as [|fuel IH]; intros st Hg; pose proof Hg as [[H1 H2] H3]; cbn [c_require].
  - destruct (Nat.leb_spec n (available st)); [|done]. repeat split; try done; try lia.
  - destruct (Nat.leb_spec n (available st)); [repeat split; try done; try lia|].
    replace (length (p_buf st) - available st <? n - available st) with false by lia. cbn [andb]. unfold work, cbind.
    pose proof (buffer_more_cost st Hg) as Hb. destruct (c_buffer_more st) as [[[] st1| | |] w1]; cbn [fst snd] in *; try done.
    destruct Hb as (G1 & G2 & G3 & G4 & G5 & G6). destruct G6 as [G6|[G6 _]]; [|lia]. specialize (IH st1 G1).
    assert (Hm : moved st1 = 0) by (unfold moved; rewrite G2; done). assert (Hm2 : (if n <=? available st1 then 0 else moved st1) = 0) by (by rewrite Hm; destruct (_ <=? _)). rewrite Hm2, Hm in IH.
    destruct (c_require fuel st1 n) as [[[] st2| | |] w2]; cbn [fst snd] in *; try done.
    + destruct IH as (I1 & I2 & I3 & I4). repeat split; try done; try apply I1; try lia.
    + lia.
Qed.
Lemma read_n_cost fuel st ty first n : 4 <= n <= 5 -> good st ->
  match c_read_n fuel st ty first n with
  | (POk tok st', w) => good st' /\ w + length (t_val tok) + pot st' + 20 <= pot st
  | (PErr, w) => w <= pot st + 1
  | (PPanic, _) => False
  | (PHang, _) => True
  end.
Proof.
  intros Hn Hg. pose proof (require_cost n ltac:(lia) fuel st Hg) as Hr. unfold c_read_n, cbind.
  assert (Hm : moved st <= available st) by (unfold moved; destruct (_ <? _); lia).
  assert (Hu0 : available st <= unread st) by (unfold unread; lia).
  destruct (c_require fuel st n) as [[[] st1| | |] w]; cbn [fst snd] in *; try done; [|unfold pot; lia].
  destruct Hr as (G1 & G2 & G3 & G4). assert (Hm' : (if n <=? available st then 0 else moved st) <= 5 /\ (if n <=? available st then 0 else moved st) <= unread st) by (destruct (Nat.leb_spec n (available st)); lia). pose proof G1 as [[H1 H2] H3].
  unfold c_current, current. cbn [fst snd]. destruct (p_buf st1 !! p_tail st1) eqn:E; [|apply lookup_ge_None in E; unfold available in *; lia].
  cbn [fst snd]. destruct (negb _); [unfold pot; lia|]. replace (length (p_buf st1) <? p_tail st1 + n) with false by (unfold available in *; lia).
  pose proof (unread_set_tail (p_tail st1 + n) st1 ltac:(unfold available in *; lia)) as Hu. cbn [fst snd].
  split; [apply good_tail; [done|unfold available in *; lia]|]. cbn [t_val]. unfold pot. rewrite left_set_tail, take_length. lia.
Qed.

Lemma read_n_pays fuel st ty first n : 4 <= n <= 5 -> good st -> pays is_good 20 0 1 st (c_read_n fuel st ty first n).
Proof.
  intros Hn H. pose proof (read_n_cost fuel st ty first n Hn H) as Hs. unfold pays.
  destruct (c_read_n fuel st ty first n) as [[] w]; cbn [fst snd]; try done. destruct Hs. split; [done|lia].
Qed.
Lemma boolean_cost fuel st : good1 st ->
  match c_read_boolean fuel st with
  | (POk tok st', w) => good st' /\ w + length (t_val tok) + pot st' + 19 <= pot st
  | (PErr, w) => w <= pot st + 2
  | (PPanic, _) => False
  | (PHang, _) => True
  end.
Proof.
  intros Hg. pose proof (current_pays st Hg) as Hc. unfold c_read_boolean, cbind. unfold pays in Hc.
  destruct Hg as [Hg Ha]. unfold c_current in *. cbn [fst snd] in *. destruct (current st) as [ch st0| | |]; try done; [|cbn [fst snd] in *; lia].
  destruct Hc as [-> _]. destruct (ch =? 116)%Z.
  - pose proof (read_n_cost fuel st TBool 116 4 ltac:(lia) Hg) as Hl. destruct (c_read_n fuel st TBool 116 4) as [[] w]; cbn [fst snd] in *; try done; [|lia].
    destruct Hl. split; [done|lia].
  - pose proof (read_n_cost fuel st TBool 102 5 ltac:(lia) Hg) as Hl. destruct (c_read_n fuel st TBool 102 5) as [[] w]; cbn [fst snd] in *; try done; [|lia].
    destruct Hl. split; [done|lia].
Qed.
Lemma boolean_pays fuel st : good1 st -> pays is_good 19 0 2 st (c_read_boolean fuel st).
Proof. intros H. pose proof (boolean_cost fuel st H) as Hs. unfold pays. destruct (c_read_boolean fuel st) as [[] w]; cbn [fst snd]; try done. destruct Hs. split; [done|lia]. Qed.

(** ---------- skipping ---------- *)
Lemma done_pays g e st r : pays is_good g 0 e st r -> pays is_good g 0 e st (c_done r).
Proof.
  intros H. apply (pays_bind is_good is_good g 0 e 0 0 0); [done| |lia|lia|lia].
  intros t st' H'. unfold pays. cbn [fst snd]. split; [done|lia].
Qed.
Lemma err_pays {A} g c e st : pays (A := A) is_good g c e st (PErr, 0).
Proof. unfold pays. cbn [fst snd]. lia. Qed.
Lemma skips_pays fuel : forall depth,
  (forall next st, good1 st -> pays is_good 5 0 3 st (c_skip depth fuel next st)) /\
  (forall st, good st -> pays is_good 5 0 5 st (c_skip_elements depth fuel st)) /\
  (forall st, good st -> pays is_good 5 0 5 st (c_skip_members depth fuel st)).
Proof.
  induction depth as [|depth (IH1 & IH2 & IH3)]; [done|]. split; [|split].
  - intros next st H. pose proof (proj1 H) as Hg. cbn [c_skip]. destruct next; try apply err_pays.
    + eapply pays_mono; [apply done_pays, read_n_pays; [lia|done]|done|lia|lia].
    + apply (pays_bind is_good is_good 7 0 1 5 0 5); [by apply consume1_pays| |lia|lia|lia]. intros. by apply IH3.
    + apply (pays_bind is_good is_good 7 0 1 5 0 5); [by apply consume1_pays| |lia|lia|lia]. intros. by apply IH2.
    + eapply pays_mono; [by apply done_pays, boolean_pays|done|lia|lia].
    + eapply pays_mono; [by apply done_pays, number_pays|done|lia|lia].
    + eapply pays_mono; [by apply done_pays, string_pays|done|lia|lia].
  - intros st H. cbn [c_skip_elements]. apply (pays_bind is_good1 is_good 0 2 2 7 0 3); [by apply next_pays| |lia|lia|lia].
    intros ty st1 H1. destruct (decide _); [eapply pays_mono; [by apply consume1_pays|done|lia|lia]|].
    apply (pays_bind is_good is_good 5 0 3 5 0 5); [by apply IH1| |lia|lia|lia]. intros. by apply IH2.
  - intros st H. cbn [c_skip_members]. apply (pays_bind is_good1 is_good 0 2 2 7 0 3); [by apply next_pays| |lia|lia|lia].
    intros ty st1 H1. destruct (decide _); [eapply pays_mono; [by apply consume1_pays|done|lia|lia]|].
    apply (pays_bind is_good is_good 14 0 2 8 0 5); [by apply string_pays| |lia|lia|lia]. intros ? st2 H2.
    apply (pays_bind is_good1 is_good 0 2 2 10 0 3); [by apply next_pays| |lia|lia|lia]. intros ? st3 H3.
    apply (pays_bind is_good is_good 5 0 3 5 0 5); [by apply IH1| |lia|lia|lia]. intros. by apply IH3.
Qed.

(** ---------- the exported methods ---------- *)
Definition needs (o : op) : bool := match o with ONext => false | _ => true end.
Lemma op_pays fuel o st : good st -> if needs o then pays is_good 2 0 5 st (c_run_op fuel o st) else pays is_good 0 2 5 st (c_run_op fuel o st).
Proof.
  intros H.
  assert (Hu : forall ty, pays is_good 2 0 5 st (cbind (c_consume fuel ty st) (fun (_ : unit) st => (POk (Token TNull []) st, 0)))).
  { intros ty. apply (pays_bind is_good is_good 6 0 2 0 0 0); [by apply consume_pays| |lia|lia|lia]. intros. split; [done|cbn; lia]. }
  assert (Ht : forall r e, match r with (POk tok st', w) => good st' /\ w + length (t_val tok) + pot st' + 2 <= pot st | (PErr, w) => w <= pot st + 5 | (PPanic, _) => False | (PHang, _) => True end ->
    (e = 5 -> pays is_good 2 0 5 st (c_token r))).
  { intros [[tok st'| | |] w] e Hr _; unfold pays, c_token, cbind; cbn [fst snd] in *; try done. destruct Hr. split; [done|lia]. }
  destruct o; cbn [needs c_run_op]; try apply Hu.
  - apply (pays_bind is_good1 is_good 0 2 2 0 0 0); [by apply next_pays| |lia|lia|lia]. intros ? ? [? ?]. split; [done|cbn; lia].
  - apply (Ht _ 5); [|done]. pose proof (space_pays fuel st H) as Hs. unfold c_ReadString, cbind. unfold pays in Hs.
    destruct (c_skip_whitespace fuel st) as [[[] st1| | |] w]; cbn [fst snd] in *; try done; [|lia]. destruct Hs as [Hs1 Hs2].
    pose proof (string_cost fuel st1 Hs1) as Hl. destruct (c_read_string fuel st1) as [[] w1]; cbn [fst snd] in *; try done; [|lia]. destruct Hl. split; [done|lia].
  - apply (Ht _ 5); [|done]. pose proof (space_pays fuel st H) as Hs. unfold c_ReadNumber, cbind. unfold pays in Hs.
    destruct (c_skip_whitespace fuel st) as [[[] st1| | |] w]; cbn [fst snd] in *; try done; [|lia]. destruct Hs as [Hs1 Hs2].
    pose proof (number_cost fuel st1 Hs1) as Hl. destruct (c_read_number fuel st1) as [[] w1]; cbn [fst snd] in *; try done; [|lia]. destruct Hl. split; [done|lia].
  - apply (Ht _ 5); [|done]. pose proof (next_pays fuel st H) as Hs. unfold c_ReadLiteral, cbind. unfold pays in Hs.
    destruct (c_next_type fuel st) as [[ty st1| | |] w]; cbn [fst snd] in *; try done; [|lia]. destruct Hs as [Hs1 Hs2].
    destruct ty; cbn [fst snd]; try lia.
    + pose proof (read_n_cost fuel st1 TNull 110 4 ltac:(lia) (proj1 Hs1)) as Hl. unfold c_read_null. destruct (c_read_n fuel st1 TNull 110 4) as [[] w1]; cbn [fst snd] in *; try done; [|lia]. destruct Hl. split; [done|lia].
    + pose proof (boolean_cost fuel st1 Hs1) as Hl. destruct (c_read_boolean fuel st1) as [[] w1]; cbn [fst snd] in *; try done; [|lia]. destruct Hl. split; [done|lia].
    + pose proof (number_cost fuel st1 Hs1) as Hl. destruct (c_read_number fuel st1) as [[] w1]; cbn [fst snd] in *; try done; [|lia]. destruct Hl. split; [done|lia].
    + pose proof (string_cost fuel st1 Hs1) as Hl. destruct (c_read_string fuel st1) as [[] w1]; cbn [fst snd] in *; try done; [|lia]. destruct Hl. split; [done|lia].
  - apply (pays_bind is_good is_good 3 0 5 0 0 0); [|intros; split; [done|cbn; lia]|lia|lia|lia].
    apply (pays_bind is_good1 is_good 0 2 2 5 0 3); [by apply next_pays| |lia|lia|lia]. intros. by apply skips_pays.
Qed.

(** ---------- programs ---------- *)
(** Every look at the next token is followed by a method that consumes something; [b]: the last method was such a look. *)
Fixpoint paid {A} (b : bool) (p : prog A) : Prop :=
  match p with
  | Ret _ => b = false
  | Call o k _ => if needs o then forall t, paid false (k t) else b = false /\ forall t, paid true (k t)
  | OutOfFuel => True
  end.
Lemma exec_cost {A} fuel (p : prog A) : forall b st, paid b p -> good st ->
  match c_exec fuel p st with (XDone _, w) => w <= pot st + (if b then 5 else 7) | (XPanic, _) => False | (XHang, _) => True end.
Proof.
  induction p as [a|o k IH e|]; intros b st Hp Hg; cbn [c_exec]; try done; [lia|].
  pose proof (op_pays fuel o st Hg) as Ho. cbn [paid] in Hp. destruct (needs o); unfold pays in Ho.
  - destruct (c_run_op fuel o st) as [[t st1| | |] w]; cbn [fst snd] in *; try done.
    + destruct Ho as [Ho1 Ho2]. specialize (IH t false st1 (Hp t) Ho1). destruct (c_exec fuel (k t) st1) as [[] w1]; cbn [fst snd] in *; try done. destruct b; lia.
    + destruct b; lia.
  - destruct Hp as [-> Hp]. destruct (c_run_op fuel o st) as [[t st1| | |] w]; cbn [fst snd] in *; try done.
    + destruct Ho as [Ho1 Ho2]. specialize (IH t true st1 (Hp t) Ho1). destruct (c_exec fuel (k t) st1) as [[] w1]; cbn [fst snd] in *; try done. lia.
    + lia.
Qed.
Lemma paid_false {A} (p : prog A) b : paid b p -> paid false p.
Proof. destruct p as [a|o k e|]; cbn [paid]; try done. by destruct (needs o); [|intros [_ ?]]. Qed.
Lemma paid_then {A B} (p : prog (A * bool)) (f : A -> B) k : forall b, paid b p -> (forall a, paid false (k a)) -> paid b (pthen p f k).
Proof.
  induction p as [[a []]|o c IH [a e]|]; intros b Hp Hk; cbn [pthen paid] in *; try done.
  - subst b. apply Hk.
  - destruct (needs o); [intros t; by apply IH|]. destruct Hp as [? Hp]. split; [done|]. intros t. by apply IH.
Qed.
Definition paid_dec {T} (b : bool) (d : decoder T) : Prop := forall t, paid b (d t).
Lemma paid_at {T A} b (get : T -> A) put d : paid_dec b d -> paid_dec b (at_field get put d).
Proof. intros H t. by apply paid_then. Qed.
Lemma paid_uint64 : paid_dec true uint64_decoder.
Proof. intros t tok. by destruct (digits_value _ _). Qed.
Lemma paid_string b : paid_dec b string_decoder.
Proof. by intros t tok. Qed.
Lemma paid_any : paid_dec true any_decoder.
Proof. by intros t tok. Qed.
Lemma paid_id : paid_dec false id_decoder.
Proof. intros t. cbn. split; [done|]. intros tok. destruct (decide _); [done|]. cbn. intros tok2. by destruct (parse_id _). Qed.
Lemma paid_map fuel : paid_dec true (map_decoder fuel).
Proof.
  intros t tok. generalize (∅ : gmap gostring gostring). induction fuel as [|fuel IH]; intros r; cbn [map_loop paid]; [done|].
  split; [done|]. intros next. destruct (decide _); [done|]. apply paid_then; [apply paid_string|]. intros key.
  apply paid_then; [apply paid_string|]. intros. apply IH.
Qed.
Lemma paid_slice {T} (zero : T) d fuel : paid_dec true d -> paid_dec true (slice_decoder zero d fuel).
Proof.
  intros Hd t tok. generalize t 0. induction fuel as [|fuel IH]; intros s i; cbn [slice_loop paid]; [done|].
  split; [done|]. intros next. destruct (decide _); [done|]. apply paid_then; [apply Hd|]. intros. apply IH.
Qed.
Lemma paid_array {T} (d : decoder T) fuel : paid_dec true d -> paid_dec true (array_decoder d fuel).
Proof.
  intros Hd t tok. generalize t 0. induction fuel as [|fuel IH]; intros s i; cbn [array_loop paid]; [done|].
  split; [done|]. intros next. destruct (decide _); [done|]. destruct (s !! i); [|cbn; intros; apply IH]. apply paid_then; [apply Hd|]. intros. apply IH.
Qed.
Lemma paid_struct {T} (fields : list (gostring * decoder T)) fuel : Forall (fun f => paid_dec false f.2) fields -> paid_dec true (struct_decoder fields fuel).
Proof.
  intros Hf t tok. generalize t. induction fuel as [|fuel IH]; intros s; cbn [struct_loop paid]; [done|].
  split; [done|]. intros next. destruct (decide _); [done|]. cbn. intros key. destruct (lookup_field fields (t_val key)) as [d|] eqn:El; [|cbn; intros; apply IH].
  apply paid_then; [|intros; apply IH]. clear IH. revert El. induction Hf as [|[nm d'] fs Hd Hf IHf]; cbn [lookup_field]; [done|].
  destruct (decide _) in |- *; [|apply IHf]. intros [= <-]. apply Hd.
Qed.
Lemma paid_dec_false {T} b (d : decoder T) : paid_dec b d -> paid_dec false d.
Proof. intros H t. eapply paid_false, H. Qed.
Lemma paid_endpoint fuel : paid_dec true (endpoint_decoder fuel).
Proof. apply paid_struct. repeat constructor. Qed.
Ltac fields := repeat (constructor; [cbn [snd]; apply paid_at; first [apply paid_id | apply paid_string | eapply paid_dec_false; first [apply paid_uint64 | apply paid_any | apply paid_map | apply paid_endpoint]]|]).
Lemma paid_v2 fuel : paid false (parse_v2_prog fuel).
Proof.
  eapply paid_false, paid_slice. intros t. apply paid_struct. unfold v2_fields. fields. constructor.
Qed.
Lemma paid_v1 fuel pool : paid false (parse_v1_prog fuel pool).
Proof.
  eapply paid_false, paid_slice. intros t. apply paid_struct. unfold v1_fields. fields.
  constructor; [cbn [snd]; apply paid_at; eapply paid_dec_false, paid_slice, paid_struct; unfold ba_fields; fields; constructor|].
  constructor; [cbn [snd]; apply paid_at; eapply paid_dec_false, paid_array, paid_struct; unfold annot_fields; fields; constructor|]. constructor.
Qed.

Lemma pot_new chunks e buf : pot (new_parser (Src chunks e) buf) = 10 * length (concat chunks) + 2 * length chunks.
Proof. unfold pot, left, unread, available. cbn. lia. Qed.
Lemma good_new s buf : 5 <= length buf -> good (new_parser s buf).
Proof. intros. split; [apply wf_new|done]. Qed.
Lemma v2_cost fuel buf chunks e r w : 5 <= length buf -> c_ParseJsonV2 fuel buf (Src chunks e) = (XDone r, w) ->
  w <= 10 * length (concat chunks) + 2 * length chunks + 7.
Proof.
  intros Hb. unfold c_ParseJsonV2. pose proof (exec_cost fuel (parse_v2_prog fuel) false _ (paid_v2 fuel) (good_new (Src chunks e) buf Hb)) as H.
  rewrite pot_new in H. destruct (c_exec _ _ _) as [[] w']; cbn [fst snd xmap]; intros [= _ <-]; done.
Qed.
Lemma v1_cost fuel buf pool chunks e r w : 5 <= length buf -> c_ParseJsonV1 fuel buf pool (Src chunks e) = (XDone r, w) ->
  w <= 10 * length (concat chunks) + 2 * length chunks + 7.
Proof.
  intros Hb. unfold c_ParseJsonV1. pose proof (exec_cost fuel (parse_v1_prog fuel pool) false _ (paid_v1 fuel pool) (good_new (Src chunks e) buf Hb)) as H.
  rewrite pot_new in H. destruct (c_exec _ _ _) as [[] w']; cbn [fst snd xmap]; intros [= _ <-]; done.
Qed.
