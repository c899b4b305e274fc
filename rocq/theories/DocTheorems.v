(** Whole requests: documents, chunk independence, termination, pooled memory. *)
From Verif Require Import Base IdModel IdSpec SpanModel JsonModel CodecModel JsonPure JsonSpec JsonProofs JsonSim JsonFacts JsonFuel JsonSafe JsonText DocSpec DocSem DocProofs DocProofs1 ParseSpec PoolProofs.

Definition y_result {A} (y : yres A) : option A := match y with YDone a _ => Some a | YError a => Some a | _ => None end.

Lemma exec_of_q {A} fuel (p : prog A) chunks e buf a : (5 <= length buf)%nat -> no_eager_error e ->
  (length chunks + length (concat chunks) < fuel)%nat ->
  y_result (q_exec fuel (length buf) p (concat chunks)) = Some a -> exec fuel p (new_parser (Src chunks e) buf) = XDone a.
Proof.
  intros Hb He Hf Hq. pose proof (exec_sim (length buf) fuel p Hb _ _ (R_new (length buf) chunks e buf eq_refl He)) as H.
  destruct (exec fuel p (new_parser (Src chunks e) buf)) as [b| |].
  - destruct H as [(l' & E)|E]; rewrite E in Hq; cbn in Hq; by injection Hq as ->.
  - done.
  - destruct H as [E|[E|E]]; [rewrite E in Hq; discriminate Hq..|]. unfold left in E. cbn in E. lia.
Qed.

Lemma q_of_exec {A} fuel (p : prog A) chunks e buf a : (5 <= length buf)%nat -> no_eager_error e ->
  exec fuel p (new_parser (Src chunks e) buf) = XDone a -> y_result (q_exec fuel (length buf) p (concat chunks)) = Some a.
Proof.
  intros Hb He Hx. pose proof (exec_sim (length buf) fuel p Hb _ _ (R_new (length buf) chunks e buf eq_refl He)) as H.
  rewrite Hx in H. destruct H as [(l' & ->)| ->]; done.
Qed.

(* ---------- C23, C24 ---------- *)

Lemma v2_loose m v l w rest chunks e buf fuel : loose m v l -> ws w -> delimited v rest -> concat chunks = w ++ l ++ rest ->
  (m <= length buf)%nat -> (5 <= length buf)%nat -> no_eager_error e ->
  (length chunks + length (concat chunks) < fuel)%nat -> (2 * length l + 2 < fuel)%nat ->
  ParseJsonV2 fuel buf (Src chunks e) = XDone (v2_spans v).
Proof.
  intros Ht Hw Hd Hc Hm Hb He Hf1 Hf2. unfold ParseJsonV2.
  pose proof (decodes_v2 fuel (length buf) m Hm (Slice [] 0) v l w rest Ht (ws_sep w Hw) Hd Hf2) as H.
  pose proof (v2_doc_sem v) as Hs. rewrite <- Hc in H.
  destruct (slice_sem zero_v2 (fun _ => struct_sem v2_sems zero_v2) (Slice [] 0) v) as [s|].
  - rewrite (exec_of_q fuel _ chunks e buf (s, true)); [|done..|unfold parse_v2_prog; by rewrite H]. cbn [xmap v2_result snd fst]. by rewrite Hs.
  - destruct H as (a & [H|(l' & H)]);
    (rewrite (exec_of_q fuel _ chunks e buf (a, false)); [|done..|unfold parse_v2_prog; by rewrite H]; cbn [xmap v2_result snd fst]; by rewrite Hs).
Qed.

Lemma v1_loose m v l w rest chunks e buf fuel pool : loose m v l -> ws w -> delimited v rest -> concat chunks = w ++ l ++ rest ->
  (m <= length buf)%nat -> (5 <= length buf)%nat -> no_eager_error e ->
  (length chunks + length (concat chunks) < fuel)%nat -> (2 * length l + 2 < fuel)%nat ->
  pooled_once pool ->
  (forall vs, v = JArr vs -> Forall (fun v => at_most_once (str "annotations") v /\ at_most_once (str "binaryAnnotations") v) vs) ->
  exists pool', ParseJsonV1 fuel buf pool (Src chunks e) = XDone (v1_spans v, pool').
Proof.
  intros Ht Hw Hd Hc Hm Hb He Hf1 Hf2 Hpool%once_clean Hv. unfold ParseJsonV1.
  pose proof (decodes_v1 fuel (length buf) m Hm (Slice pool 0) v l w rest Ht (ws_sep w Hw) Hd Hf2) as H.
  pose proof (v1_doc_sem v pool Hpool Hv) as Hs. rewrite <- Hc in H.
  destruct (slice_sem zero_v1 (fun t => struct_sem v1_sems (reset_v1 t)) (Slice pool 0) v) as [s|].
  - rewrite (exec_of_q fuel _ chunks e buf (s, true)); [|done..|unfold parse_v1_prog; by rewrite H]. cbn [xmap v1_result snd fst].
    destruct Hs as [-> Hcl]. eexists. reflexivity.
  - destruct H as (a & [H|(l' & H)]);
    (rewrite (exec_of_q fuel _ chunks e buf (a, false)); [|done..|unfold parse_v1_prog; by rewrite H]; cbn [xmap v1_result snd fst]; rewrite Hs; eexists; reflexivity).
Qed.

Lemma v2_document m v l w rest chunks e buf fuel : text m v l -> ws w -> delimited v rest -> concat chunks = w ++ l ++ rest ->
  (m <= length buf)%nat -> (5 <= length buf)%nat -> no_eager_error e ->
  (length chunks + length (concat chunks) < fuel)%nat -> (2 * length l + 2 < fuel)%nat ->
  ParseJsonV2 fuel buf (Src chunks e) = XDone (v2_spans v).
Proof. intros H. eapply v2_loose. by apply (text_loose m). Qed.

Lemma v1_document m v l w rest chunks e buf fuel pool : text m v l -> ws w -> delimited v rest -> concat chunks = w ++ l ++ rest ->
  (m <= length buf)%nat -> (5 <= length buf)%nat -> no_eager_error e ->
  (length chunks + length (concat chunks) < fuel)%nat -> (2 * length l + 2 < fuel)%nat ->
  pooled_once pool ->
  (forall vs, v = JArr vs -> Forall (fun v => at_most_once (str "annotations") v /\ at_most_once (str "binaryAnnotations") v) vs) ->
  exists pool', ParseJsonV1 fuel buf pool (Src chunks e) = XDone (v1_spans v, pool').
Proof. intros H. eapply v1_loose. by apply (text_loose m). Qed.

(* ---------- C17 ---------- *)

Lemma q_split_independent {A} (P : nat -> prog A) fuel fuel' cap cap' l a :
  (forall n n', (n <= n')%nat -> ple (P n) (P n')) -> q_exec fuel' cap (P fuel') l <> YFuel -> (cap <= cap')%nat ->
  y_result (q_exec fuel cap (P fuel) l) = Some a -> y_result (q_exec fuel' cap' (P fuel') l) = Some a.
Proof.
  intros HP Hf Hc Ha.
  assert (E1 : q_exec (fuel + fuel') cap (P (fuel + fuel')%nat) l = q_exec fuel cap (P fuel) l).
  { apply q_exec_mono; [lia|apply HP; lia|]. intros E. by rewrite E in Ha. }
  assert (E2 : q_exec (fuel + fuel') cap (P (fuel + fuel')%nat) l = q_exec fuel' cap (P fuel') l).
  { apply q_exec_mono; [lia|apply HP; lia|done]. }
  rewrite E1 in E2. rewrite (q_exec_cap fuel' cap cap'); [by rewrite <- E2|done|]. rewrite <- E2. intros E. by rewrite E in Ha.
Qed.

Lemma v2_split_independent fuel fuel' buf buf' chunks chunks' e e' r :
  concat chunks = concat chunks' -> (5 <= length buf <= length buf')%nat -> no_eager_error e -> no_eager_error e' ->
  (length chunks' + length (concat chunks') < fuel')%nat -> (2 * length (concat chunks') + 2 < fuel')%nat ->
  ParseJsonV2 fuel buf (Src chunks e) = XDone r -> ParseJsonV2 fuel' buf' (Src chunks' e') = XDone r.
Proof.
  intros Hc [Hb Hbb] He He' Hf1 Hf2. unfold ParseJsonV2. destruct (exec fuel (parse_v2_prog fuel) (new_parser (Src chunks e) buf)) as [a| |] eqn:E; try done.
  cbn [xmap]. intros [= <-]. apply q_of_exec in E; [|done..]. rewrite Hc in E.
  rewrite (exec_of_q fuel' _ chunks' e' buf' a); [done|lia|done|done|].
  eapply (q_split_independent parse_v2_prog fuel fuel' (length buf)); [apply ple_v2| |done|exact E].
  pose proof (enough_v2 fuel' (length buf) (length (concat chunks')) ltac:(lia) (concat chunks') ltac:(lia) ltac:(lia)) as H.
  intros E'. by rewrite E' in H.
Qed.

Lemma v1_split_independent fuel fuel' buf buf' pool chunks chunks' e e' r :
  concat chunks = concat chunks' -> (5 <= length buf <= length buf')%nat -> no_eager_error e -> no_eager_error e' ->
  (length chunks' + length (concat chunks') < fuel')%nat -> (2 * length (concat chunks') + 2 < fuel')%nat ->
  ParseJsonV1 fuel buf pool (Src chunks e) = XDone r -> ParseJsonV1 fuel' buf' pool (Src chunks' e') = XDone r.
Proof.
  intros Hc [Hb Hbb] He He' Hf1 Hf2. unfold ParseJsonV1. destruct (exec fuel (parse_v1_prog fuel pool) (new_parser (Src chunks e) buf)) as [a| |] eqn:E; try done.
  cbn [xmap]. intros [= <-]. apply q_of_exec in E; [|done..]. rewrite Hc in E.
  rewrite (exec_of_q fuel' _ chunks' e' buf' a); [done|lia|done|done|].
  eapply (q_split_independent (fun n => parse_v1_prog n pool) fuel fuel' (length buf)); [intros; by apply ple_v1| |done|exact E].
  pose proof (enough_v1 fuel' (length buf) (length (concat chunks')) pool ltac:(lia) (concat chunks') ltac:(lia) ltac:(lia)) as H.
  intros E'. by rewrite E' in H.
Qed.

(* ---------- C18 ---------- *)

Lemma short_tokens_suffix cap l l' : l' `suffix_of` l -> short_tokens cap l -> short_tokens cap l'.
Proof. intros [k ->] H pre c r ->. apply (H (k ++ pre) c r). by rewrite app_assoc. Qed.

Lemma short_tokens_small cap body : (length body <= cap)%nat -> short_tokens cap body.
Proof. intros H pre c l ->. rewrite app_length in H. cbn in H. split; intros _; left; lia. Qed.

Lemma close_raw s : raw_string s -> forall rest n has, exists has', close (s ++ 34 :: rest) n false has = Some ((n + length s)%nat, has').
Proof.
  induction 1 as [|c l H1 H2 _ IH|c l _ IH]; intros rest n has.
  - cbn. exists has. by rewrite Nat.add_0_r.
  - cbn [app close]. unfold ch_backslash, ch_quote. replace (c =? 92) with false by lia. replace (c =? 34) with false by lia.
    destruct (IH rest (S n) has) as [h E]. exists h. rewrite E. f_equal. f_equal. cbn [length]. lia.
  - cbn [app close]. change (92 =? ch_backslash) with true. cbn [close]. destruct (IH rest (S (S n)) true) as [h E]. exists h. rewrite E. f_equal. f_equal. cbn [length]. lia.
Qed.

Lemma suffix_drop {A} (l : list A) n : drop n l `suffix_of` l.
Proof. exists (take n l). by rewrite take_drop. Qed.
Lemma drop_space_suffix l : drop_space l `suffix_of` l.
Proof. induction l as [|b l IH]; cbn [drop_space]; [done|]. destruct (is_space b); [|done]. by apply suffix_cons_r. Qed.

(** No hang, and what is left is a suffix. *)
Definition sound {A} (l : bytes) (q : qres A) : Prop := match q with QOk _ l' => l' `suffix_of` l | QHang => False | _ => True end.

Lemma sound_bind {A B} l (q : qres A) (f : A -> bytes -> qres B) :
  sound l q -> (forall a l', l' `suffix_of` l -> sound l' (f a l')) -> sound l (qbind q f).
Proof.
  intros Hq Hf. destruct q as [a l'| | |]; cbn [sound qbind] in *; try done. specialize (Hf a l' Hq). destruct (f a l'); cbn [sound] in *; try done.
  by etransitivity.
Qed.

Lemma sound_space l : sound l (q_space l).
Proof. unfold q_space. pose proof (drop_space_suffix l) as H. destruct (drop_space l); cbn; done. Qed.
Lemma sound_current l : sound l (q_current l).
Proof. destruct l; cbn; done. Qed.
Lemma sound_next l : sound l (q_next l).
Proof.
  apply sound_bind; [apply sound_space|]. intros _ l1 _. apply sound_bind; [apply sound_current|]. intros b l2 _. destruct (symbol b); cbn; done.
Qed.
Lemma sound_consume1 ty l : sound l (q_consume1 ty l).
Proof. destruct l as [|b l]; cbn [q_consume1]; [done|]. destruct (decide _); cbn; [|done]. by apply suffix_cons_r. Qed.
Lemma sound_consume ty l : sound l (q_consume ty l).
Proof. apply sound_bind; [apply sound_space|]. intros. apply sound_consume1. Qed.
Lemma sound_read_n l ty first n : sound l (q_read_n l ty first n).
Proof.
  unfold q_read_n. destruct (n <=? length l)%nat; [|done]. destruct l as [|c l]; [done|]. destruct (negb _); [done|]. apply suffix_drop.
Qed.
Lemma sound_boolean l : sound l (q_boolean l).
Proof. apply sound_bind; [apply sound_current|]. intros c l1 _. destruct (c =? 116); apply sound_read_n. Qed.

Lemma sound_string cap l : short_tokens cap l -> sound l (q_string cap l).
Proof.
  intros Hs. destruct l as [|c l]; [done|]. cbn [q_string]. destruct (Z.eqb_spec c ch_quote) as [->|]; cbn [negb]; [|done].
  destruct (Hs [] ch_quote l eq_refl) as [H _]. specialize (H eq_refl). unfold q_string_body.
  assert (Hlt : forall n has, close l 0 false false = Some (n, has) -> (n < cap)%nat).
  { intros n has E. destruct H as [H|(s & rest & -> & Hl & Hr)].
    - apply close_bound in E. lia.
    - destruct (close_raw s Hr rest 0 false) as [h E']. rewrite E' in E. injection E as <- _. done. }
  destruct (close l 0 false false) as [[n has]|] eqn:E.
  - specialize (Hlt n has eq_refl). replace (n <? cap)%nat with true by (symmetry; by apply Nat.ltb_lt).
    assert (Hsuf : drop (n + 1) l `suffix_of` ch_quote :: l) by (etransitivity; [apply suffix_drop|by apply suffix_cons_r]).
    destruct has; [destruct (unescape _)|]; done.
  - destruct H as [H|(s & rest & -> & Hl & Hr)].
    + replace (length l <=? cap)%nat with true by (symmetry; by apply Nat.leb_le). done.
    + destruct (close_raw s Hr rest 0 false) as [h E']. by rewrite E' in E.
Qed.

Lemma digit_number_byte c : is_digit c = true -> number_byte c.
Proof.
  unfold is_digit. intros H%bool_decide_eq_true. unfold symbol in H. unfold number_byte. repeat case_match; try discriminate; lia.
Qed.
Lemma number_end_le s b rest : is_number_char b = false -> forall n, exists k, number_end (s ++ b :: rest) n = Some k /\ (k <= n + length s)%nat.
Proof.
  intros Hb. induction s as [|c s IH]; intros n; cbn [app number_end length].
  - rewrite Hb. exists n. split; [done|lia].
  - destruct (is_number_char c).
    + destruct (IH (S n)) as (k & -> & Hk). exists k. split; [done|lia].
    + exists n. split; [done|lia].
Qed.

Lemma sound_number cap l : short_tokens cap l -> sound l (q_number cap l).
Proof.
  intros Hs. destruct l as [|c l]; [done|]. cbn [q_number]. destruct (is_digit c) eqn:Ed; cbn [negb]; [|done].
  destruct (Hs [] c l eq_refl) as [_ H]. specialize (H (digit_number_byte c Ed)).
  destruct H as [H|(s & b & rest & -> & Hl & Hb)].
  - destruct (number_end l 1) as [n|] eqn:E.
    + apply number_end_bound in E. replace (n <? cap)%nat with true by (symmetry; apply Nat.ltb_lt; lia). apply suffix_drop.
    + replace (length (c :: l) <=? cap)%nat with true by (symmetry; apply Nat.leb_le; cbn; lia). done.
  - destruct (number_end_le s b rest (number_byte_char b Hb) 1) as (n & -> & Hn). replace (n <? cap)%nat with true by (symmetry; apply Nat.ltb_lt; lia). apply suffix_drop.
Qed.

Lemma sound_literal cap l : short_tokens cap l -> sound l (q_literal cap l).
Proof.
  intros Hs. apply sound_bind; [apply sound_next|]. intros t l' Hl. pose proof (short_tokens_suffix _ _ _ Hl Hs) as Hs'.
  destruct t; try done; [apply sound_read_n|apply sound_boolean|by apply sound_number|by apply sound_string].
Qed.

Lemma sound_skips cap : forall depth,
  (forall next l, short_tokens cap l -> sound l (q_skip depth cap next l)) /\
  (forall l, short_tokens cap l -> sound l (q_skip_elements depth cap l)) /\
  (forall l, short_tokens cap l -> sound l (q_skip_members depth cap l)).
Proof.
  induction depth as [|depth (IH1 & IH2 & IH3)]; [done|].
  assert (Hu : forall {A} l (q : qres A), sound l q -> sound l (qbind q (fun _ l => QOk tt l))).
  { intros A l q Hq. apply sound_bind; [done|]. intros. cbn. done. }
  split; [|split]; cbn [q_skip q_skip_elements q_skip_members].
  - intros next l Hs. destruct next; try done.
    + apply Hu, sound_read_n.
    + apply sound_bind; [apply sound_consume1|]. intros _ l' Hl. apply IH3. by eapply short_tokens_suffix.
    + apply sound_bind; [apply sound_consume1|]. intros _ l' Hl. apply IH2. by eapply short_tokens_suffix.
    + apply Hu, sound_boolean.
    + by apply Hu, sound_number.
    + by apply Hu, sound_string.
  - intros l Hs. apply sound_bind; [apply sound_next|]. intros t l' Hl. pose proof (short_tokens_suffix _ _ _ Hl Hs) as Hs'.
    destruct (decide _); [apply sound_consume1|]. apply sound_bind; [by apply IH1|]. intros _ l2 Hl2. apply IH2. by eapply short_tokens_suffix.
  - intros l Hs. apply sound_bind; [apply sound_next|]. intros t l' Hl. pose proof (short_tokens_suffix _ _ _ Hl Hs) as Hs'.
    destruct (decide _); [apply sound_consume1|]. apply sound_bind; [by apply sound_string|]. intros _ l2 Hl2.
    pose proof (short_tokens_suffix _ _ _ Hl2 Hs') as Hs2. apply sound_bind; [apply sound_next|]. intros t3 l3 Hl3.
    pose proof (short_tokens_suffix _ _ _ Hl3 Hs2) as Hs3. apply sound_bind; [by apply IH1|]. intros _ l4 Hl4. apply IH3. by eapply short_tokens_suffix.
Qed.

Lemma sound_op depth cap o l : short_tokens cap l -> sound l (q_op depth cap o l).
Proof.
  intros Hs. assert (Hu : forall (q : qres unit), sound l q -> sound l (qbind q (fun _ l => QOk (Token TNull []) l))).
  { intros q Hq. apply sound_bind; [done|]. intros. cbn. done. }
  destruct o; cbn [q_op].
  - apply sound_bind; [apply sound_next|]. intros. cbn. done.
  - apply Hu, sound_consume. - apply Hu, sound_consume. - apply Hu, sound_consume. - apply Hu, sound_consume.
  - apply sound_bind; [apply sound_space|]. intros _ l' Hl. apply sound_string. by eapply short_tokens_suffix.
  - apply sound_bind; [apply sound_space|]. intros _ l' Hl. apply sound_number. by eapply short_tokens_suffix.
  - by apply sound_literal.
  - apply Hu. apply sound_bind; [apply sound_next|]. intros t l' Hl. apply (proj1 (sound_skips cap depth)). by eapply short_tokens_suffix.
Qed.

Lemma q_exec_short {A} depth cap (p : prog A) : forall l, short_tokens cap l -> q_exec depth cap p l <> YHang.
Proof.
  induction p as [a|o k IH e|]; intros l Hs; cbn [q_exec]; try done.
  pose proof (sound_op depth cap o l Hs) as H. destruct (q_op depth cap o l) as [t l'| | |]; cbn [sound] in H; try done.
  apply IH. by eapply short_tokens_suffix.
Qed.

Lemma exec_terminates {A} fuel (p : prog (A * bool)) chunks e buf : (5 <= length buf)%nat -> no_eager_error e ->
  (length chunks + length (concat chunks) < fuel)%nat -> short_tokens (length buf) (concat chunks) ->
  q_exec fuel (length buf) p (concat chunks) <> YFuel -> exists r, exec fuel p (new_parser (Src chunks e) buf) = XDone r.
Proof.
  intros Hb He Hf Hs Hq. pose proof (q_exec_short fuel (length buf) p (concat chunks) Hs) as Hh.
  destruct (q_exec fuel (length buf) p (concat chunks)) as [a l'|a| |] eqn:E; try done;
    exists a; (apply exec_of_q; [done..|by rewrite E]).
Qed.

Lemma v2_terminates fuel chunks e buf : (5 <= length buf)%nat -> no_eager_error e ->
  (length chunks + length (concat chunks) < fuel)%nat -> (2 * length (concat chunks) + 2 < fuel)%nat -> short_tokens (length buf) (concat chunks) ->
  exists r, ParseJsonV2 fuel buf (Src chunks e) = XDone r.
Proof.
  intros Hb He Hf1 Hf2 Hs. unfold ParseJsonV2. destruct (exec_terminates fuel (parse_v2_prog fuel) chunks e buf Hb He Hf1 Hs) as [r ->]; [|by eexists].
  pose proof (enough_v2 fuel (length buf) (length (concat chunks)) ltac:(lia) (concat chunks) ltac:(lia) ltac:(lia)) as H.
  intros E'. by rewrite E' in H.
Qed.
Lemma v1_terminates fuel chunks e buf pool : (5 <= length buf)%nat -> no_eager_error e ->
  (length chunks + length (concat chunks) < fuel)%nat -> (2 * length (concat chunks) + 2 < fuel)%nat -> short_tokens (length buf) (concat chunks) ->
  exists r, ParseJsonV1 fuel buf pool (Src chunks e) = XDone r.
Proof.
  intros Hb He Hf1 Hf2 Hs. unfold ParseJsonV1. destruct (exec_terminates fuel (parse_v1_prog fuel pool) chunks e buf Hb He Hf1 Hs) as [r ->]; [|by eexists].
  pose proof (enough_v1 fuel (length buf) (length (concat chunks)) pool ltac:(lia) (concat chunks) ltac:(lia) ltac:(lia)) as H.
  intros E'. by rewrite E' in H.
Qed.

(** A member name that does not fit into the buffer. *)
Lemma close_long x tail : Forall (fun c => c <> 34 /\ c <> 92) x -> forall n has,
  match close (x ++ tail) n false has with Some (k, _) => (n + length x <= k)%nat | None => True end.
Proof.
  induction 1 as [|c x [H1 H2] _ IH]; intros n has; cbn [app].
  - destruct (close tail n false has) as [[k h]|] eqn:E; [|done]. apply close_bound in E. cbn. lia.
  - cbn [close]. unfold ch_backslash, ch_quote. replace (c =? 92) with false by lia. replace (c =? 34) with false by lia.
    specialize (IH (S n) has). destruct (close (x ++ tail) (S n) false has) as [[k h]|]; [|done]. cbn [length]. lia.
Qed.

Lemma q_exec_long_name fuel cap x tail : (cap < length x)%nat -> Forall (fun c => c <> 34 /\ c <> 92) x ->
  y_result (q_exec fuel cap (parse_v2_prog fuel) (91 :: 123 :: 34 :: x ++ tail)) = None.
Proof.
  intros Hl Hx. unfold parse_v2_prog, slice_decoder. cbn [q_exec q_op].
  change (q_consume TArrBegin (91 :: 123 :: 34 :: x ++ tail)) with (QOk tt (123 :: 34 :: x ++ tail)). cbn [qbind q_exec].
  destruct fuel as [|fuel]; cbn [slice_loop q_exec]; [done|]. cbn [q_op].
  change (q_next (123 :: 34 :: x ++ tail)) with (QOk TObjBegin (123 :: 34 :: x ++ tail)). cbn [qbind t_type].
  rewrite decide_False by done. rewrite q_exec_pthen. unfold span_v2_decoder, struct_decoder. cbn [q_exec q_op].
  change (q_consume TObjBegin (123 :: 34 :: x ++ tail)) with (QOk tt (34 :: x ++ tail)). cbn [qbind q_exec struct_loop]. cbn [q_op].
  change (q_next (34 :: x ++ tail)) with (QOk TString (34 :: x ++ tail)). cbn [qbind t_type].
  rewrite decide_False by done. cbn [q_exec q_op].
  change (q_space (34 :: x ++ tail)) with (QOk tt (34 :: x ++ tail)). cbn [qbind q_string].
  change (negb (34 =? ch_quote)) with false. unfold q_string_body.
  pose proof (close_long x tail Hx 0 false) as Hc. destruct (close (x ++ tail) 0 false false) as [[k h]|].
  - replace (k <? cap)%nat with false by (symmetry; apply Nat.ltb_ge; lia). done.
  - rewrite app_length. replace (length x + length tail <=? cap)%nat with false by (symmetry; apply Nat.leb_gt; lia). done.
Qed.

Lemma v2_hangs fuel buf chunks e x tail : (5 <= length buf < length x)%nat -> no_eager_error e -> Forall (fun c => c <> 34 /\ c <> 92) x ->
  concat chunks = str "[{""" ++ x ++ tail -> ParseJsonV2 fuel buf (Src chunks e) = XHang.
Proof.
  intros [Hb Hl] He Hx Hc. unfold ParseJsonV2. destruct (exec fuel (parse_v2_prog fuel) (new_parser (Src chunks e) buf)) as [r| |] eqn:E.
  - apply q_of_exec in E; [|done..]. rewrite Hc in E. change (str "[{""" ++ x ++ tail) with (91 :: 123 :: 34 :: x ++ tail) in E.
    by rewrite q_exec_long_name in E.
  - exfalso. by apply (exec_safe fuel (parse_v2_prog fuel) (new_parser (Src chunks e) buf) (wf_new _ _)).
  - done.
Qed.

(* ---------- single methods of the parser ---------- *)

Lemma run_op_ok fuel o chunks e buf t rest : (5 <= length buf)%nat -> no_eager_error e ->
  (length chunks + length (concat chunks) < fuel)%nat -> q_op fuel (length buf) o (concat chunks) = QOk t rest ->
  exists st, run_op fuel o (new_parser (Src chunks e) buf) = POk t st /\ unread st = rest.
Proof.
  intros Hb He Hf Hq. pose proof (op_sim (length buf) fuel o _ _ Hb (R_new (length buf) chunks e buf eq_refl He)) as H. rewrite Hq in H.
  destruct (run_op fuel o (new_parser (Src chunks e) buf)) as [t' st| | |]; cbn [psim] in H; try done.
  - destruct H as (l' & [= <- <-] & HR & _). exists st. split; [done|]. destruct HR as (_ & _ & _ & E & _). done.
  - destruct H as [H|[H|H]]; try discriminate H. unfold left in H. cbn in H. lia.
Qed.

Lemma skip_loose m v l w rest chunks e buf fuel : loose m v l -> ws w -> delimited v rest -> concat chunks = w ++ l ++ rest ->
  (m <= length buf)%nat -> (5 <= length buf)%nat -> no_eager_error e ->
  (length chunks + length (concat chunks) < fuel)%nat -> (2 * length l < fuel)%nat ->
  exists st, Skip fuel (new_parser (Src chunks e) buf) = POk tt st /\ unread st = rest.
Proof.
  intros Ht Hw Hd Hc Hm Hb He Hf1 Hf2.
  destruct (run_op_ok fuel OSkip chunks e buf (Token TNull []) rest Hb He Hf1) as (st & E & Hu).
  - cbn [q_op]. rewrite Hc. rewrite (q_Skip_text (length buf) m v l) by (try done; by apply ws_sep). done.
  - cbn [run_op] in E. destruct (Skip fuel (new_parser (Src chunks e) buf)) as [[] st'| | |]; cbn [pbind] in E; try discriminate E.
    injection E as <-. eauto.
Qed.

Lemma read_string_loose raw v w rest chunks e buf fuel : loose_string raw v -> ws w -> concat chunks = w ++ 34 :: raw ++ 34 :: rest ->
  (length raw < length buf)%nat -> (5 <= length buf)%nat -> no_eager_error e ->
  (length chunks + length (concat chunks) < fuel)%nat ->
  exists st, ReadString fuel (new_parser (Src chunks e) buf) = POk (Token TString v) st /\ unread st = rest.
Proof.
  intros Hs Hw Hc Hl Hb He Hf. apply (run_op_ok fuel OString chunks e buf); try done. rewrite Hc.
  pose proof (q_op_string fuel (length buf) (length buf) (Nat.le_refl _) (JStr v) (34 :: raw ++ [34]) w rest (l_str _ raw v Hs Hl) (ws_sep w Hw)) as H.
  cbn [app] in H. rewrite <- app_assoc in H. exact H.
Qed.

Lemma skip_value m v l w rest chunks e buf fuel : text m v l -> ws w -> delimited v rest -> concat chunks = w ++ l ++ rest ->
  (m <= length buf)%nat -> (5 <= length buf)%nat -> no_eager_error e ->
  (length chunks + length (concat chunks) < fuel)%nat -> (2 * length l < fuel)%nat ->
  exists st, Skip fuel (new_parser (Src chunks e) buf) = POk tt st /\ unread st = rest.
Proof. intros H. eapply skip_loose. by apply (text_loose m). Qed.

Lemma read_string_value raw v w rest chunks e buf fuel : simple_string raw v -> ws w -> concat chunks = w ++ 34 :: raw ++ 34 :: rest ->
  (length raw < length buf)%nat -> (5 <= length buf)%nat -> no_eager_error e ->
  (length chunks + length (concat chunks) < fuel)%nat ->
  exists st, ReadString fuel (new_parser (Src chunks e) buf) = POk (Token TString v) st /\ unread st = rest.
Proof. intros H. apply read_string_loose. by apply simple_loose. Qed.

Lemma uint64_value l b w rest chunks e buf fuel t : Forall number_byte l -> l <> [] -> ~ number_byte b -> ws w -> concat chunks = w ++ l ++ b :: rest ->
  (length l < length buf)%nat -> (5 <= length buf)%nat -> no_eager_error e ->
  (length chunks + length (concat chunks) < fuel)%nat ->
  exec fuel (uint64_decoder t) (new_parser (Src chunks e) buf) =
    XDone (if forallb (fun c => (48 <=? c) && (c <=? 57)) l then (dec_value 0 l mod 2^64, true) else (t, false)).
Proof.
  intros Hn Hne Hb Hw Hc Hl Hbuf He Hf. apply exec_of_q; try done. rewrite Hc. cbn [uint64_decoder q_exec q_op].
  destruct l as [|c l]; [done|]. inversion Hn as [|? ? Hc1 Hn1]; subst.
  assert (Hsp : is_space c = false). { destruct Hc1 as [?|[->|[->| ->]]]; try done. unfold is_space, symbol. apply bool_decide_false. repeat case_match; try done; lia. }
  assert (E : q_space (w ++ (c :: l) ++ b :: rest) = QOk tt ((c :: l) ++ b :: rest)).
  { unfold q_space. assert (drop_space (w ++ (c :: l) ++ b :: rest) = (c :: l) ++ b :: rest) as ->; [|done]. clear -Hw Hsp.
    induction (ws_sep w Hw) as [|x w Hx _ IH]; cbn [app drop_space]; [by rewrite Hsp|]. rewrite Hx. inversion Hw; subst. by apply IH. }
  rewrite E. cbn [qbind app q_number].
  assert (Hchars : Forall (fun c => is_number_char c = true) l).
  { eapply Forall_impl; [exact Hn1|]. intros x Hx. unfold is_number_char, is_digit. destruct Hx as [?|[->|[->| ->]]]; try done. by rewrite digit_symbol. }
  destruct (is_digit c) eqn:Ed; cbn [negb].
  - rewrite number_end_app; [|done|by apply number_byte_char]. cbn [length] in Hl. replace (1 + length l <? length buf)%nat with true by (symmetry; apply Nat.ltb_lt; lia).
    assert (Etk : take (1 + length l) (c :: l ++ b :: rest) = c :: l) by (cbn [Nat.add take]; by rewrite take_app). rewrite Etk. cbn [q_exec t_val].
    rewrite digits_value_spec by lia. destruct (forallb _ (c :: l)); done.
  - cbn [y_result]. assert (Hf0 : forallb (fun c => (48 <=? c) && (c <=? 57)) (c :: l) = false).
    { cbn [forallb]. apply andb_false_iff. left. destruct Hc1 as [?|[->|[->| ->]]]; try done. unfold is_digit in Ed. by rewrite digit_symbol in Ed. }
    by rewrite Hf0.
Qed.

Lemma parse_safe fuel buf src pool : ParseJsonV2 fuel buf src <> XPanic /\ ParseJsonV1 fuel buf pool src <> XPanic.
Proof.
  unfold ParseJsonV2, ParseJsonV1. split.
  - pose proof (exec_safe fuel (parse_v2_prog fuel) _ (wf_new src buf)). by destruct (exec _ _ _).
  - pose proof (exec_safe fuel (parse_v1_prog fuel pool) _ (wf_new src buf)). by destruct (exec _ _ _).
Qed.

Lemma body_never_decoded : exists body, forall fuel e, no_eager_error e -> ParseJsonV2 fuel (replicate (Z.to_nat 8192) 0) (Src [body] e) = XHang.
Proof.
  exists (str "[{""" ++ replicate (Z.to_nat 8193) 97 ++ str """:1}]"). intros fuel e He.
  apply (v2_hangs fuel (replicate (Z.to_nat 8192) 0) _ e (replicate (Z.to_nat 8193) 97) (str """:1}]")).
  - rewrite !replicate_length. split; lia.
  - exact He.
  - apply Forall_replicate. lia.
  - cbn [concat]. apply app_nil_r.
Qed.

Lemma newline_is_n : exists raw v, json_string raw v /\ exists st,
  ReadString 20 (new_parser (Src [34 :: raw ++ [34]] (EndEOF false)) (replicate 64 0)) = POk (Token TString (str "n")) st /\ str "n" <> v.
Proof.
  exists (str "\n"), [10]. split; [apply js_n, js_nil|]. eexists. split; [vm_compute; reflexivity|discriminate].
Qed.

Definition plain (s : bytes) : bytes := 34 :: s ++ [34].
Ltac plain := vm_compute; repeat (apply ss_plain; [discriminate|discriminate|]); apply ss_nil.

Lemma sample_text : text 20 (JArr [JObj [(str "id", JStr (str "1f")); (str "x", JArr [JNum (str "1"); JObj []]); (str "kind", JStr (str "Server"));
                       (str "timestamp", JNum (str "5")); (str "tags", JObj [(str "a", JStr (str "b"))])]])
  (str "[{ ""id"":""1f"",""x"":[1, {}],""kind"" :""Server"",""timestamp"":5,""tags"":{""a"":""b""}}]").
Proof.
  assert (W0 : ws []) by constructor. assert (W1 : ws [32]) by (repeat constructor; lia).
  assert (N : forall c, 48 <= c <= 57 -> text 20 (JNum [c]) [c]).
  { intros c Hc. apply t_num; [|cbn; lia]. exists [], [c], [], []. split; [done|]. split; [by left|]. split; [split; [apply Forall_cons; split; [lia|apply Forall_nil; exact I]|done]|]. split; by left. }
  assert (S : forall raw, simple_string raw raw -> (length raw < 20)%nat -> text 20 (JStr raw) (plain raw)) by (intros; by apply t_str).
  assert (T1 : text 20 (JArr [JNum (str "1"); JObj []]) _)
    by exact (t_arr 20 _ _ (e_more 20 _ [] _ [] _ _ W0 (N 49 ltac:(lia)) W0 (e_one 20 _ [32] _ [] W1 (t_obj_empty 20 [] W0) W0))).
  assert (A : simple_string (str "a") (str "a")) by plain. assert (B : simple_string (str "b") (str "b")) by plain.
  assert (K1 : simple_string (str "id") (str "id")) by plain. assert (K2 : simple_string (str "x") (str "x")) by plain.
  assert (K3 : simple_string (str "kind") (str "kind")) by plain. assert (K4 : simple_string (str "timestamp") (str "timestamp")) by plain.
  assert (K5 : simple_string (str "tags") (str "tags")) by plain. assert (V1 : simple_string (str "1f") (str "1f")) by plain.
  assert (V3 : simple_string (str "Server") (str "Server")) by plain.
  pose proof (t_obj 20 _ _ (m_one 20 _ _ [] [] [] _ _ [] W0 A ltac:(cbn; lia) W0 W0 (S _ B ltac:(cbn; lia)) W0)) as T5.
  pose proof (m_one 20 _ _ [] [] [] _ _ [] W0 K5 ltac:(cbn; lia) W0 W0 T5 W0) as M5.
  pose proof (m_more 20 _ _ [] [] [] _ _ [] _ _ W0 K4 ltac:(cbn; lia) W0 W0 (N 53 ltac:(lia)) W0 M5) as M4.
  pose proof (m_more 20 _ _ [] [32] [] _ _ [] _ _ W0 K3 ltac:(cbn; lia) W1 W0 (S _ V3 ltac:(cbn; lia)) W0 M4) as M3.
  pose proof (m_more 20 _ _ [] [] [] _ _ [] _ _ W0 K2 ltac:(cbn; lia) W0 W0 T1 W0 M3) as M2.
  pose proof (m_more 20 _ _ [32] [] [] _ _ [] _ _ W1 K1 ltac:(cbn; lia) W0 W0 (S _ V1 ltac:(cbn; lia)) W0 M2) as M1.
  exact (t_arr 20 _ _ (e_one 20 _ [] _ [] W0 (t_obj 20 _ _ M1) W0)).
Qed.

Lemma repeats_dec fuel buf pool src :
  match exec fuel (counted_prog fuel pool) (new_parser src buf) with
  | XDone (s, _) => forallb (fun tc => (tc.2 <=? 1)%nat) (sl_mem s) = true
  | _ => True
  end -> ~ repeats fuel buf pool src.
Proof.
  unfold repeats. destruct (exec _ _ _) as [[s ?]| |]; try tauto.
  intros H. rewrite forallb_forall in H. rewrite Exists_exists. intros (tc & Hin & H2).
  apply elem_of_list_In, H, Nat.leb_le in Hin. lia.
Qed.
