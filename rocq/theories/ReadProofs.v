(** Reading arrays and objects with consumers. *)
From Verif Require Import Base IdModel SpanModel JsonModel CodecModel JsonPure JsonSpec JsonProofs JsonSim JsonFacts JsonText DocSpec DocSem LooseProofs
  ParseSpec LooseSpec LooseTheorems DocTheorems ReadModel ReadSpec.

Lemma before_R cap st l : before cap st l <-> R cap st l.
Proof. done. Qed.
Lemma reads_left_eq st : reads_left st = left st. Proof. done. Qed.

Lemma sim_ok {A} cap fuel Q m0 (p : pres A) a l : psim cap fuel Q m0 p (QOk a l) -> (m0 < fuel)%nat ->
  exists st, p = POk a st /\ before cap st l /\ (reads_left st <= m0)%nat /\ Q st.
Proof.
  intros H Hf. destruct p as [a' st| | |]; cbn [psim] in H; try done.
  - destruct H as (l' & [= <- <-] & HR & Hl & HQ). by exists st.
  - destruct H as [H|[H|H]]; try discriminate H. lia.
Qed.
Lemma sim_inv {A} cap fuel Q m0 (p : pres A) q a st : psim cap fuel Q m0 p q -> p = POk a st ->
  exists l, q = QOk a l /\ before cap st l /\ Q st.
Proof. intros H ->. destruct H as (l & E & HR & _ & HQ). by exists l. Qed.

Section read.
  Context {S : Type} (fuel cap : nat) (Hcap : (5 <= cap)%nat).
  Let Hc0 : (0 < cap)%nat. Proof. lia. Qed.

  (* ---------- arrays ---------- *)

  Lemma array_loop_reads (c : S -> pstate -> pres S) P f : reads fuel cap c P f -> forall vs l, loose_elements cap vs l -> Forall P vs ->
    forall n s st rest, before cap st (l ++ 93 :: rest) -> (length l < n)%nat -> (reads_left st < fuel)%nat -> (2 * length l + 2 < fuel)%nat ->
    exists st', read_array_loop fuel n c s st = POk (foldl f s vs) st' /\ before cap st' rest /\ (reads_left st' <= reads_left st)%nat.
  Proof.
    intros Hr vs. induction vs as [|v vs IH]; intros l Hl HP n s st rest Hb Hn Hf1 Hf2.
    - inversion Hl as [w Hw|]; subst. destruct n as [|n]; [lia|]. cbn [read_array_loop].
      pose proof (next_sim cap fuel st _ Hc0 Hb) as H. rewrite q_next_char in H by (try done; by apply ws_sep).
      apply sim_ok in H as (st1 & -> & Hb1 & Hl1 & Hr1); [|done]. cbn [pbind]. rewrite decide_True by done.
      pose proof (consume1_sim cap fuel TArrEnd st1 _ Hb1 Hr1) as H. cbn [q_consume1] in H. rewrite decide_True in H by done.
      apply sim_ok in H as (st2 & -> & Hb2 & Hl2 & _); [|unfold reads_left, left in *; lia]. cbn [pbind foldl]. exists st2. split; [done|]. split; [done|].
      unfold reads_left, left in *; lia.
    - inversion Hl as [|w v' lv vs' l' Hw Hv Hd Hvs]; subst. inversion HP as [|? ? HPv HPs]; subst. destruct n as [|n]; [lia|]. cbn [read_array_loop].
      rewrite <- !app_assoc in Hb. pose proof (next_sim cap fuel st _ Hc0 Hb) as H. erewrite q_next_text in H; [|exact Hv|by apply ws_sep].
      apply sim_ok in H as (st1 & -> & Hb1 & Hl1 & Hr1); [|done]. cbn [pbind]. destruct (kind_not_end v). rewrite decide_False by done.
      rewrite !app_length in *. destruct (text_head _ _ _ Hv) as (? & ? & -> & _). cbn [length] in *.
      edestruct (Hr s st1 []) as (st2 & -> & Hb2 & Hl2); [exact Hb1|constructor|exact Hv|by apply delimited_prefix|done|unfold left, reads_left in *; lia|cbn; lia|].
      cbn [pbind foldl]. edestruct (IH l' Hvs HPs n (f s v) st2 rest Hb2) as (st3 & -> & Hb3 & Hl3); [lia|unfold left, reads_left in *; lia|lia|].
      exists st3. split; [done|]. split; [done|]. unfold left, reads_left in *; lia.
  Qed.

  Lemma array_reads (c : S -> pstate -> pres S) P f : reads fuel cap c P f -> reads fuel cap (ReadArray fuel c) (array_of P) (over_array f).
  Proof.
    intros Hr s st w v l rest Hb Hw Hl _ (vs & -> & HP) Hf1 Hf2. inversion Hl as [| | | | | |vs' l' Hvs|]; subst.
    cbn [app] in Hb. rewrite <- app_assoc in Hb. cbn [app] in Hb. cbn [length] in Hf2. rewrite app_length in Hf2. cbn [length] in Hf2.
    unfold ReadArray. pose proof (consume_sim cap fuel TArrBegin st _ Hc0 Hb) as H. unfold q_consume in H.
    rewrite q_space_char in H by (try done; by apply ws_sep). cbn [qbind q_consume1] in H. rewrite decide_True in H by done.
    apply sim_ok in H as (st1 & -> & Hb1 & Hl1 & _); [|done]. cbn [pbind over_array].
    edestruct (array_loop_reads c P f Hr vs l' Hvs HP fuel s st1 rest Hb1) as (st2 & -> & Hb2 & Hl2); [lia|unfold left, reads_left in *; lia|lia|].
    exists st2. split; [done|]. split; [done|]. unfold left, reads_left in *; lia.
  Qed.

  Lemma document_value body v rest : document cap body v rest -> exists w l', body = w ++ l' /\ ws w /\ value_at cap v l' rest.
  Proof. intros (w & l & -> & Hw & Hl & Hd). exists w, (l ++ rest). split; [done|]. split; [done|]. by exists l. Qed.

  Lemma array_loop_only (c : S -> pstate -> pres S) P f : reads_only cap c P f -> forall n s st body s' st',
    before cap st body -> read_array_loop fuel n c s st = POk s' st' ->
    exists vs txt rest, body = txt ++ 93 :: rest /\ loose_elements cap vs txt /\ Forall P vs /\ s' = foldl f s vs /\ before cap st' rest.
  Proof.
    intros Ho n. induction n as [|n IH]; intros s st body s' st' Hb; cbn [read_array_loop]; [done|].
    pose proof (next_sim cap fuel st _ Hc0 Hb) as H. destruct (next_type fuel st) as [ty st1| | |] eqn:E; cbn [pbind]; try done.
    eapply sim_inv in H as (l1 & Eq & Hb1 & Hr1); [|done]. apply q_next_inv in Eq as (w & b & r & -> & Hw & -> & Hs & _).
    destruct (decide (ty = TArrEnd)) as [->|Hty].
    - pose proof (consume1_sim cap fuel TArrEnd st1 _ Hb1 Hr1) as H. destruct (consume1 TArrEnd st1) as [u st2| | |] eqn:E2; cbn [pbind]; try done.
      intros [= <- <-]. eapply sim_inv in H as (l2 & Eq & Hb2 & _); [|done]. apply q_consume1_inv in Eq as (b' & [= -> ->] & _).
      pose proof (symbol_char b') as K. rewrite Hs in K. subst b'. exists [], w, l2. split; [done|]. split; [by constructor|]. done.
    - destruct (c s st1) as [s1 st2| | |] eqn:E2; cbn [pbind]; try done. intros Er.
      destruct (Ho _ _ _ _ _ Hb1 E2) as (v & rest1 & Hd & HP & -> & Hb2). destruct (IH _ _ _ _ _ Hb2 Er) as (vs & txt & rest & -> & Hvs & HPs & -> & Hb3).
      destruct Hd as (w' & l & El & Hw' & Hl & Hd). exists (v :: vs), ((w ++ w') ++ l ++ txt), rest.
      split; [rewrite El; by rewrite <- !app_assoc|]. split; [|split; [by constructor|done]]. constructor; try done; [by apply Forall_app_2|]. by eapply delimited_prefix.
  Qed.

  Lemma array_reads_only (c : S -> pstate -> pres S) P f : reads_only cap c P f -> reads_only cap (ReadArray fuel c) (array_of P) (over_array f).
  Proof.
    intros Ho s st body s' st' Hb. unfold ReadArray.
    pose proof (consume_sim cap fuel TArrBegin st _ Hc0 Hb) as H. destruct (consume fuel TArrBegin st) as [u st1| | |] eqn:E; cbn [pbind]; try done.
    eapply sim_inv in H as (l1 & Eq & Hb1 & _); [|done]. apply q_consume_inv in Eq as (w & b & -> & Hw & Hs).
    pose proof (symbol_char b) as K. rewrite Hs in K. subst b. intros Er.
    destruct (array_loop_only c P f Ho _ _ _ _ _ _ Hb1 Er) as (vs & txt & rest & -> & Hvs & HP & -> & Hb2).
    exists (JArr vs), rest. split; [|split; [by exists vs|done]]. exists w, (91 :: txt ++ [93]). split; [cbn; by rewrite <- app_assoc|].
    split; [done|]. split; [by constructor|done].
  Qed.

  (* ---------- objects ---------- *)

  Lemma object_loop_reads (c : bytes -> S -> pstate -> pres S) P f : (forall k, reads fuel cap (c k) (P k) (f k)) ->
    forall ms l, loose_members cap ms l -> Forall (fun m => P m.1 m.2) ms ->
    forall n s st rest, before cap st (l ++ 125 :: rest) -> (length l < n)%nat -> (reads_left st < fuel)%nat -> (2 * length l + 2 < fuel)%nat ->
    exists st', read_object_loop fuel n c s st = POk (foldl (fun s m => f m.1 s m.2) s ms) st' /\ before cap st' rest /\ (reads_left st' <= reads_left st)%nat.
  Proof.
    intros Hr ms. induction ms as [|[k v] ms IH]; intros l Hl HP n s st rest Hb Hn Hf1 Hf2.
    - inversion Hl as [w Hw|]; subst. destruct n as [|n]; [lia|]. cbn [read_object_loop].
      pose proof (next_sim cap fuel st _ Hc0 Hb) as H. rewrite q_next_char in H by (try done; by apply ws_sep).
      apply sim_ok in H as (st1 & -> & Hb1 & Hl1 & Hr1); [|done]. cbn [pbind]. rewrite bool_decide_false by done. cbn [negb].
      pose proof (consume1_sim cap fuel TObjEnd st1 _ Hb1 Hr1) as H. cbn [q_consume1] in H. rewrite decide_True in H by done.
      apply sim_ok in H as (st2 & -> & Hb2 & Hl2 & _); [|unfold reads_left, left in *; lia]. cbn [pbind foldl]. exists st2. split; [done|]. split; [done|].
      unfold reads_left, left in *; lia.
    - inversion Hl as [|w raw k' w' v' lv ms' l' Hw Hk Hkl Hw' Hv Hd Hms]; subst. inversion HP as [|? ? HPv HPs]; subst. destruct n as [|n]; [lia|].
      cbn [read_object_loop]. cbn [fst snd] in HPv.
      repeat (rewrite <- ?app_assoc in Hb; cbn [app] in Hb). pose proof (next_sim cap fuel st _ Hc0 Hb) as H. rewrite q_next_char in H by (try done; by apply ws_sep).
      apply sim_ok in H as (st1 & -> & Hb1 & Hl1 & Hr1); [|done]. cbn [pbind]. rewrite bool_decide_true by done. cbn [negb].
      pose proof (string_sim cap fuel st1 _ Hc0 Hb1 Hr1) as H. rewrite (q_string_text cap raw k) in H by (done || lia).
      apply sim_ok in H as (st2 & -> & Hb2 & Hl2 & _); [|unfold left, reads_left in *; lia]. cbn [pbind t_val].
      repeat (rewrite ?app_length in *; cbn [length] in * ).
      edestruct (Hr k s st2 w') as (st3 & -> & Hb3 & Hl3); [exact Hb2|done|exact Hv|by apply delimited_prefix|done|unfold left, reads_left in *; lia|lia|].
      cbn [pbind foldl fst snd]. edestruct (IH l' Hms HPs n (f k s v) st3 rest Hb3) as (st4 & -> & Hb4 & Hl4); [lia|unfold left, reads_left in *; lia|lia|].
      exists st4. split; [done|]. split; [done|]. unfold left, reads_left in *; lia.
  Qed.

  Lemma object_reads (c : bytes -> S -> pstate -> pres S) P f : (forall k, reads fuel cap (c k) (P k) (f k)) ->
    reads fuel cap (ReadObject fuel c) (object_of P) (over_object f).
  Proof.
    intros Hr s st w v l rest Hb Hw Hl _ (ms & -> & HP) Hf1 Hf2. inversion Hl as [| | | | | | |ms' l' Hms]; subst.
    cbn [app] in Hb. rewrite <- app_assoc in Hb. cbn [app] in Hb. cbn [length] in Hf2. rewrite app_length in Hf2. cbn [length] in Hf2.
    unfold ReadObject. pose proof (consume_sim cap fuel TObjBegin st _ Hc0 Hb) as H. unfold q_consume in H.
    rewrite q_space_char in H by (try done; by apply ws_sep). cbn [qbind q_consume1] in H. rewrite decide_True in H by done.
    apply sim_ok in H as (st1 & -> & Hb1 & Hl1 & _); [|done]. cbn [pbind over_object].
    edestruct (object_loop_reads c P f Hr ms l' Hms HP fuel s st1 rest Hb1) as (st2 & -> & Hb2 & Hl2); [lia|unfold left, reads_left in *; lia|lia|].
    exists st2. split; [done|]. split; [done|]. unfold left, reads_left in *; lia.
  Qed.

  Lemma object_loop_only (c : bytes -> S -> pstate -> pres S) P f : (forall k, reads_only cap (c k) (P k) (f k)) -> forall n s st body s' st',
    before cap st body -> read_object_loop fuel n c s st = POk s' st' ->
    exists ms txt rest, body = txt ++ 125 :: rest /\ loose_members cap ms txt /\ Forall (fun m => P m.1 m.2) ms /\
      s' = foldl (fun s m => f m.1 s m.2) s ms /\ before cap st' rest.
  Proof.
    intros Ho n. induction n as [|n IH]; intros s st body s' st' Hb; cbn [read_object_loop]; [done|].
    pose proof (next_sim cap fuel st _ Hc0 Hb) as H. destruct (next_type fuel st) as [ty st1| | |] eqn:E; cbn [pbind]; try done.
    eapply sim_inv in H as (l1 & Eq & Hb1 & Hr1); [|done]. apply q_next_inv in Eq as (w & b & r & -> & Hw & -> & Hs & _).
    case_bool_decide as Hty; cbn [negb].
    - pose proof (string_sim cap fuel st1 _ Hc0 Hb1 Hr1) as H. destruct (read_string fuel st1) as [key st2| | |] eqn:E2; cbn [pbind]; try done.
      eapply sim_inv in H as (l2 & Eq & Hb2 & _); [|done]. apply q_string_inv in Eq as (raw & k & Ebr & Hk & Hkl & ->). cbn [t_val].
      destruct (c k s st2) as [s1 st3| | |] eqn:E3; cbn [pbind]; try done. intros Er.
      destruct (Ho _ _ _ _ _ _ Hb2 E3) as (v & rest1 & Hd & HP & -> & Hb3). destruct (IH _ _ _ _ _ Hb3 Er) as (ms & txt & rest & -> & Hms & HPs & -> & Hb4).
      destruct Hd as (w' & l & -> & Hw' & Hl & Hd). exists ((k, v) :: ms), (w ++ 34 :: raw ++ 34 :: w' ++ l ++ txt), rest.
      split; [rewrite Ebr; repeat (rewrite <- ?app_assoc; cbn [app]); done|]. split; [|split; [by constructor|done]]. constructor; try done. by eapply delimited_prefix.
    - pose proof (consume1_sim cap fuel TObjEnd st1 _ Hb1 Hr1) as H. destruct (consume1 TObjEnd st1) as [u st2| | |] eqn:E2; cbn [pbind]; try done.
      intros [= <- <-]. eapply sim_inv in H as (l2 & Eq & Hb2 & _); [|done]. apply q_consume1_inv in Eq as (b' & [= -> ->] & Hs').
      pose proof (symbol_char b') as K. rewrite Hs' in K. subst b'. exists [], w, l2. split; [done|]. split; [by constructor|]. done.
  Qed.

  Lemma object_reads_only (c : bytes -> S -> pstate -> pres S) P f : (forall k, reads_only cap (c k) (P k) (f k)) ->
    reads_only cap (ReadObject fuel c) (object_of P) (over_object f).
  Proof.
    intros Ho s st body s' st' Hb. unfold ReadObject.
    pose proof (consume_sim cap fuel TObjBegin st _ Hc0 Hb) as H. destruct (consume fuel TObjBegin st) as [u st1| | |] eqn:E; cbn [pbind]; try done.
    eapply sim_inv in H as (l1 & Eq & Hb1 & _); [|done]. apply q_consume_inv in Eq as (w & b & -> & Hw & Hs).
    pose proof (symbol_char b) as K. rewrite Hs in K. subst b. intros Er.
    destruct (object_loop_only c P f Ho _ _ _ _ _ _ Hb1 Er) as (ms & txt & rest & -> & Hms & HP & -> & Hb2).
    exists (JObj ms), rest. split; [|split; [by exists ms|done]]. exists w, (123 :: txt ++ [125]). split; [cbn; by rewrite <- app_assoc|].
    split; [done|]. split; [by constructor|done].
  Qed.

  (* ---------- leaves ---------- *)

  Lemma skip_reads (g : S -> S) : reads fuel cap (fun s st => pbind (Skip fuel st) (fun _ st => POk (g s) st)) (fun _ => True) (fun s _ => g s).
  Proof.
    intros s st w v l rest Hb Hw Hl Hd _ Hf1 Hf2. pose proof (op_sim cap fuel OSkip st _ Hcap Hb) as H. cbn [run_op q_op] in H.
    rewrite (q_Skip_text cap cap v l) in H by (first [done|by apply ws_sep|lia]). cbn [qbind] in H.
    destruct (Skip fuel st) as [u st1| | |]; cbn [pbind] in *; (eapply sim_ok in H as (st2 & E & Hb2 & Hl2 & _); [|done]); try discriminate E.
    injection E as ->. exists st2. done.
  Qed.
  Lemma skip_reads_only (g : S -> S) : reads_only cap (fun s st => pbind (Skip fuel st) (fun _ st => POk (g s) st)) (fun _ => True) (fun s _ => g s).
  Proof.
    intros s st body s' st' Hb. pose proof (op_sim cap fuel OSkip st _ Hcap Hb) as H. cbn [run_op] in H.
    destruct (Skip fuel st) as [u st1| | |]; cbn [pbind] in *; try done. intros [= <- <-].
    eapply sim_inv in H as (l & Eq & Hb2 & _); [|done]. apply op_skip_inv in Eq as (w & v & l1 & El & Hw & Hv). exists v, l.
    split; [by eapply described_value|done].
  Qed.
End read.

Lemma strings_reads fuel cap : (5 <= cap)%nat -> reads fuel cap (strings fuel) a_string (fun s v => s ++ [string_of v]).
Proof.
  intros Hcap s st w v l rest Hb Hw Hl Hd (t & ->) Hf1 Hf2. pose proof (op_sim cap fuel OString st _ Hcap Hb) as H. cbn [run_op] in H.
  rewrite (q_op_string fuel cap cap (Nat.le_refl _) (JStr t) l) in H by (try done; by apply ws_sep).
  apply sim_ok in H as (st1 & E & Hb1 & Hl1 & _); [|done]. unfold strings. rewrite E. cbn [pbind t_val string_of]. by exists st1.
Qed.
Lemma strings_reads_only fuel cap : (5 <= cap)%nat -> reads_only cap (strings fuel) a_string (fun s v => s ++ [string_of v]).
Proof.
  intros Hcap s st body s' st' Hb. pose proof (op_sim cap fuel OString st _ Hcap Hb) as H. cbn [run_op] in H. unfold strings.
  destruct (ReadString fuel st) as [tok st1| | |]; cbn [pbind] in *; try done. intros [= <- <-].
  eapply sim_inv in H as (l & Eq & Hb2 & _); [|done]. cbn [q_op] in Eq. destruct (q_space body) as [[] l1| | |] eqn:E; cbn [qbind] in Eq; try done.
  apply q_space_inv in E as (w & b & r & -> & Hw & -> & _). apply string_at in Eq. exists (JStr (t_val tok)), l.
  split; [by eapply described_value|]. split; [by eexists|done].
Qed.

(* ---------- on a fresh parser ---------- *)

Lemma count_fold vs : forall n, foldl (fun s (_ : json) => S s) n vs = (n + length vs)%nat.
Proof. induction vs as [|v vs IH]; intros n; cbn; [lia|]. rewrite IH. lia. Qed.
Lemma keys_fold (ms : list (bytes * json)) : forall s, foldl (fun s m => s ++ [m.1]) s ms = s ++ map fst ms.
Proof. induction ms as [|m ms IH]; intros s; cbn; [by rewrite app_nil_r|]. rewrite IH, <- app_assoc. done. Qed.

Lemma count_exact fuel buf chunks e : (5 <= length buf)%nat -> no_eager_error e ->
  (length chunks + length (concat chunks) < fuel)%nat -> (2 * length (concat chunks) + 2 < fuel)%nat -> forall n rest,
  (exists st, ReadArray fuel (counting fuel) 0%nat (new_parser (Src chunks e) buf) = POk n st /\ unread st = rest) <->
  exists vs, document (length buf) (concat chunks) (JArr vs) rest /\ length vs = n.
Proof.
  intros Hb He Hf1 Hf2 n rest. pose proof (R_new (length buf) chunks e buf eq_refl He) as HR. split.
  - intros (st & E & Hu). eapply (array_reads_only fuel (length buf) Hb) in E as (v & rest' & Hd & (vs & -> & _) & -> & Hb');
      [|exact (skip_reads_only fuel (length buf) Hb S)|exact HR].
    assert (rest' = rest) as -> by (destruct Hb' as (_ & _ & _ & El & _); by rewrite El). exists vs. split; [done|]. cbn [over_array]. by rewrite count_fold.
  - intros (vs & (w & l & El & Hw & Hl & Hd) & <-). assert (length l <= length (concat chunks))%nat by (rewrite El, !app_length; lia). rewrite El in HR.
    edestruct (array_reads fuel (length buf) Hb (counting fuel) _ _ (skip_reads fuel (length buf) Hb S) 0%nat) as (st & E & Hb' & _);
      [exact HR|done|exact Hl|done|exists vs; split; [done|by apply Forall_true]|done|lia|].
    exists st. split; [rewrite E; cbn [over_array]; by rewrite count_fold|]. destruct Hb' as (_ & _ & _ & Er & _). done.
Qed.

Lemma keys_exact fuel buf chunks e : (5 <= length buf)%nat -> no_eager_error e ->
  (length chunks + length (concat chunks) < fuel)%nat -> (2 * length (concat chunks) + 2 < fuel)%nat -> forall ks rest,
  (exists st, ReadObject fuel (keys fuel) [] (new_parser (Src chunks e) buf) = POk ks st /\ unread st = rest) <->
  exists ms, document (length buf) (concat chunks) (JObj ms) rest /\ map fst ms = ks.
Proof.
  intros Hb He Hf1 Hf2 ks rest. pose proof (R_new (length buf) chunks e buf eq_refl He) as HR. split.
  - intros (st & E & Hu).
    eapply (object_reads_only fuel (length buf) Hb (keys fuel) (fun _ _ => True) (fun k s _ => s ++ [k])) in E as (v & rest' & Hd & (ms & -> & _) & -> & Hb');
      [|intros k; exact (skip_reads_only fuel (length buf) Hb (fun s => s ++ [k]))|exact HR].
    assert (rest' = rest) as -> by (destruct Hb' as (_ & _ & _ & El & _); by rewrite El). exists ms. split; [done|]. cbn [over_object]. by rewrite keys_fold.
  - intros (ms & (w & l & El & Hw & Hl & Hd) & <-). assert (length l <= length (concat chunks))%nat by (rewrite El, !app_length; lia). rewrite El in HR.
    edestruct (object_reads fuel (length buf) Hb (keys fuel) (fun _ _ => True) (fun k s _ => s ++ [k])
      (fun k => skip_reads fuel (length buf) Hb (fun s => s ++ [k])) []) as (st & E & Hb' & _);
      [exact HR|done|exact Hl|done|exists ms; split; [done|by apply Forall_true]|done|lia|].
    exists st. split; [rewrite E; cbn [over_object]; by rewrite keys_fold|]. destruct Hb' as (_ & _ & _ & Er & _). done.
Qed.

(** A consumer that reads nothing is called for ever. *)
Lemma sim_ok_or {A} cap fuel Q m0 (p : pres A) a l : psim cap fuel Q m0 p (QOk a l) -> p = PHang \/ exists st, p = POk a st /\ before cap st l /\ Q st.
Proof.
  intros H. destruct p as [a' st| | |]; cbn [psim] in H; try done; [|by left].
  destruct H as (l' & [= <- <-] & HR & Hl & HQ). right. by exists st.
Qed.
Lemma idle_loop {S} fuel cap n : forall (s : S) st w b r, (5 <= cap)%nat -> before cap st (w ++ b :: r) -> ws w ->
  symbol b <> TArrEnd -> symbol b <> TSpace -> symbol b <> TError -> read_array_loop fuel n idle s st = PHang.
Proof.
  induction n as [|n IH]; intros s st w b r Hc Hb Hw H1 H2 H3; [done|]. cbn [read_array_loop].
  pose proof (next_sim cap fuel st _ ltac:(lia) Hb) as H. rewrite q_next_char in H by (try done; by apply ws_sep).
  apply sim_ok_or in H as [->|(st1 & -> & Hb1 & _)]; [done|]. cbn [pbind]. rewrite decide_False by done. unfold idle at 1. cbn [pbind].
  by apply (IH s st1 [] b r Hc Hb1 (Forall_nil_2 _)).
Qed.
Lemma idle_hangs {S} fuel cap (s : S) st w v vs l rest : (5 <= cap)%nat -> before cap st (w ++ l ++ rest) -> ws w -> loose cap (JArr (v :: vs)) l ->
  ReadArray fuel idle s st = PHang.
Proof.
  intros Hc Hb Hw Hl. unfold ReadArray. inversion Hl as [| | | | | |vs' l' Hvs|]; subst. inversion Hvs as [|w1 v1 l1 vs1 l2 Hw1 Hv1 Hd1 Hvs1]; subst.
  repeat (rewrite <- ?app_assoc in Hb; cbn [app] in Hb).
  pose proof (consume_sim cap fuel TArrBegin st _ ltac:(lia) Hb) as H. unfold q_consume in H.
  rewrite q_space_char in H by (try done; by apply ws_sep). cbn [qbind q_consume1] in H. rewrite decide_True in H by done.
  apply sim_ok_or in H as [->|(st1 & -> & Hb1 & _)]; [done|]. cbn [pbind].
  destruct (text_head _ _ _ Hv1) as (b & l' & -> & Hk). cbn [app] in Hb1. eapply (idle_loop fuel cap fuel s st1 w1 b); try done; rewrite Hk.
  - by destruct (kind_not_end v).
  - apply kind_not_space.
  - apply kind_not_error.
Qed.
