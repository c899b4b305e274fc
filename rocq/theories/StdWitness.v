(** Jaeger documents that are treated in unexpected ways. *)
From Verif Require Import Base IdModel IdSpec SpanModel JsonModel CodecModel JsonSpec DocSpec JaegerModel StdJsonModel StdJsonSpec StdJsonProofs StdTextProofs StdDocProofs.

Definition plain_byte (c : Z) : bool := (32 <=? c) && (c <? 128) && negb (c =? 34) && negb (c =? 92).
Fixpoint plain_tree (t : tree) : bool :=
  match t with
  | TStr raw => forallb plain_byte raw
  | TArr l => forallb plain_tree l
  | TObj l => forallb (fun m => forallb plain_byte m.1 && plain_tree m.2) l
  | _ => true
  end.
Fixpoint plain_value (t : tree) : json :=
  match t with
  | TNil => JNull
  | TBoolean b => if b then JTrue else JFalse
  | TNum l => JNum l
  | TStr raw => JStr raw
  | TArr l => JArr (map plain_value l)
  | TObj l => JObj (map (fun m => (m.1, plain_value m.2)) l)
  end.
Lemma plain_string raw : forallb plain_byte raw = true -> json_string raw raw /\ utf8_text raw.
Proof.
  induction raw as [|c raw IH]; [split; constructor|]. cbn [forallb]. unfold plain_byte at 1. intros (H & H')%andb_prop. destruct (IH H') as [? ?].
  split; [apply js_plain; [lia..|done]|apply utf8_text_ascii; [lia|done]].
Qed.
Lemma gram_plain (P : bytes -> bytes -> Prop) : (forall raw, P raw raw) ->
  (forall t l, gram t l -> plain_tree t = true -> means P t (plain_value t)) /\
  (forall ts l, gram_elements ts l -> forallb plain_tree ts = true -> means_all P ts (map plain_value ts)) /\
  (forall ms l, gram_members ms l -> forallb (fun m => forallb plain_byte m.1 && plain_tree m.2) ms = true -> means_members P ms (map (fun m => (m.1, plain_value m.2)) ms)).
Proof.
  intros HP. apply gram_mutind; intros; cbn [plain_tree plain_value map forallb fst snd] in *;
    repeat match goal with H : _ && _ = true |- _ => apply andb_prop in H as [? ?] end;
    repeat match goal with H : forallb plain_byte _ = true |- _ => apply plain_string in H as [? ?] end; try (constructor; by auto);
    repeat (constructor; auto).
Qed.
Lemma plain_ids_refl raw : plain_ids raw raw.
Proof. done. Qed.
Lemma scan_begins l t rest : scan_value (2 * length l + 2) 0 (skip_space l) = Scanned t rest -> begins_with l t rest.
Proof.
  intros E. apply scan_sound in E as (l' & E & Hg & Hn). destruct (skip_space_split l) as (w & Hw & Ew).
  exists w, l'. split; [by rewrite Ew at 1; rewrite E|]. split; [done|]. split; [done|]. unfold max_nesting in *. lia.
Qed.
Definition doc_tree (l : bytes) : tree := match scan_value (2 * length l + 2) 0 (skip_space l) with Scanned t _ => t | _ => TNil end.
Definition doc_value (l : bytes) : json := plain_value (doc_tree l).
(** A body that is a plain document. *)
Lemma plain_document l : (match scan_value (2 * length l + 2) 0 (skip_space l) with Scanned t [] => plain_tree t | _ => false end) = true ->
  begins_with l (doc_tree l) [] /\ means plain_ids (doc_tree l) (doc_value l).
Proof.
  intros H. unfold doc_value, doc_tree. destruct (scan_value (2 * length l + 2) 0 (skip_space l)) as [t rest| |] eqn:E; [|done..]. destruct rest; [|done].
  pose proof (scan_begins _ _ _ E) as Hb. split; [done|]. destruct Hb as (w & l' & _ & _ & Hg & _). by eapply (gram_plain plain_ids plain_ids_refl).
Qed.

Ltac nothing_twice :=
  unfold given_once; repeat (first
    [apply ev_obj; [repeat apply Forall_cons_2; try apply Forall_nil_2; vm_compute; lia|repeat apply Forall_cons_2; try apply Forall_nil_2; cbn [snd]]
    |apply ev_arr; [repeat apply Forall_cons_2; try apply Forall_nil_2; exact I|repeat apply Forall_cons_2; try apply Forall_nil_2]
    |apply ev_other; [repeat apply Forall_cons_2; try apply Forall_nil_2; exact I|exact I]]).
Ltac no_numbers :=
  repeat (first [apply db_obj; repeat apply Forall_cons_2; try apply Forall_nil_2; cbn [snd]|apply db_arr; repeat apply Forall_cons_2; try apply Forall_nil_2|by apply db_other]).

Definition escaped_id : bytes := str "{""data"":[{""spans"":[{""spanID"":""\u0061""}]}]}".
Definition plain_id : bytes := str "{""data"":[{""spans"":[{""spanID"":""a""}]}]}".
Lemma escapes_matter : exists l1 l2 t1 t2 v data, begins_with l1 t1 [] /\ begins_with l2 t2 [] /\ means (fun _ _ => True) t1 v /\ means (fun _ _ => True) t2 v /\
  given_once v /\ doubles v /\ jaeger_document v = Some data /\ jaeger_body (Src [l1] (EndEOF true)) = Some data /\ jaeger_body (Src [l2] (EndEOF true)) = None.
Proof.
  exists plain_id, escaped_id, (doc_tree plain_id), (doc_tree escaped_id), (doc_value plain_id), [JData [JSpan 0 10 [] [] 0 0 [] []] ∅].
  destruct (plain_document plain_id ltac:(by vm_compute)) as [Hb _]. split; [done|]. split; [apply scan_begins; by vm_compute|].
  assert (Hs : forall raw, forallb plain_byte raw = true -> json_string raw raw /\ utf8_text raw) by apply plain_string.
  assert (Hu : forall raw, forallb (fun c => (0 <=? c) && (c <? 128)) raw = true -> utf8_text raw).
  { induction raw as [|x l IH]; [constructor|]. cbn [forallb]. intros (Hx & Hl)%andb_prop. apply utf8_text_ascii; [lia|by apply IH]. }
  split; [|split].
  - destruct Hb as (w & l & _ & _ & Hg & _). apply (gram_plain (fun _ _ => True) (fun _ => I)) in Hg; [done|by vm_compute].
  - change (doc_tree escaped_id) with (TObj [(str "data", TArr [TObj [(str "spans", TArr [TObj [(str "spanID", TStr (str "\u0061"))]])]])]).
    change (doc_value plain_id) with (JObj [(str "data", JArr [JObj [(str "spans", JArr [JObj [(str "spanID", JStr (str "a"))]])]])]).
    repeat (first [apply mn_arr|apply mn_obj|apply mna_nil|apply mnm_nil|apply mna_cons|apply mnm_cons; [by apply Hs|by apply Hs|..]|apply mn_str]); [|by apply Hu|done].
    assert (E : str "a" = utf8 97 ++ []) by by vm_compute. rewrite E. apply (js_u 48 48 54 49 97 []); [|unfold surrogate; lia|constructor].
    exists 0, 0, 6, 1. repeat split; try lia; unfold hex_is; lia.
  - split; [|split; [|split; [by vm_compute|split; by vm_compute]]].
    + change (doc_value plain_id) with (JObj [(str "data", JArr [JObj [(str "spans", JArr [JObj [(str "spanID", JStr (str "a"))]])]])]).
      nothing_twice.
    + change (doc_value plain_id) with (JObj [(str "data", JArr [JObj [(str "spans", JArr [JObj [(str "spanID", JStr (str "a"))]])]])]).
      no_numbers.
Qed.

(** The second list of tags is decoded over the first one. *)
Definition twice : bytes := str "{""data"":[{""spans"":[{""tags"":[{""key"":""a"",""value"":""x""}],""tags"":[{""key"":""b""}]}]}]}".
Lemma repeated_members_mix : exists l t v, begins_with l t [] /\ means plain_ids t v /\ doubles v /\
  jaeger_document v = Some [JData [JSpan 0 0 [] [] 0 0 [] [JTag (str "b") JVOther]] ∅] /\
  jaeger_body (Src [l] (EndEOF true)) = Some [JData [JSpan 0 0 [] [] 0 0 [] [JTag (str "b") (JVString (str "x"))]] ∅].
Proof.
  exists twice, (doc_tree twice), (doc_value twice). destruct (plain_document twice ltac:(by vm_compute)) as [Hb Hm]. split; [done|]. split; [done|].
  split; [|split; by vm_compute]. let v := eval vm_compute in (doc_value twice) in change (doc_value twice) with v. no_numbers.
Qed.

(** A number that is too large for double precision in a tag that is not used. *)
Definition huge : bytes := str "{""data"":[{""spans"":[{""spanID"":""a"",""tags"":[{""key"":""n"",""value"":1e999}]}]}]}".
Lemma large_number_rejected : exists l t v, begins_with l t [] /\ means plain_ids t v /\ given_once v /\
  jaeger_document v = Some [JData [JSpan 0 10 [] [] 0 0 [] [JTag (str "n") JVOther]] ∅] /\ jaeger_body (Src [l] (EndEOF true)) = None.
Proof.
  exists huge, (doc_tree huge), (doc_value huge). destruct (plain_document huge ltac:(by vm_compute)) as [Hb Hm]. split; [done|]. split; [done|].
  split; [|split; by vm_compute]. let v := eval vm_compute in (doc_value huge) in change (doc_value huge) with v. nothing_twice.
Qed.

(** A document like the one in codec/jaeger_test.go. *)
Definition sample : bytes := str " {""data"":[{""traceID"":""dead"",""spans"":[{""traceID"":""dead"",""spanID"":""beaf"",""operationName"":""getconnection"",""references"":[{""refType"":""CHILD_OF"",""traceID"":""dead"",""spanID"":""aaaa""}],""startTime"":1560276970000000,""duration"":1000000,""tags"":[{""key"":""span.kind"",""type"":""string"",""value"":""client""},{""key"":""component"",""value"":""postgres""},{""key"":""internal.span.format"",""value"":""proto""}],""logs"":[],""processID"":""p1"",""warnings"":null}],""processes"":{""p1"":{""serviceName"":""core-services"",""tags"":[]}}}]} trailing".
Lemma int_double l : l <> [] -> forallb (fun c => (48 <=? c) && (c <=? 57)) l = true -> (length l < 300)%nat -> dec_value 0 l < 2^1024 - 2^970 -> is_double l.
Proof.
  intros Hne Hd Hl Hv. split; [lia|]. exists [], l, [], []. split; [by rewrite !app_nil_r|]. split; [by left|].
  split.
  { split; [|done]. apply Forall_forall. intros c Hc. apply elem_of_list_In in Hc. rewrite forallb_forall in Hd. apply Hd in Hc. lia. }
  exists []. split; [by left|]. exists 0. split; [by left|]. rewrite app_nil_r. change (10 ^ Z.max 0 0) with 1. change (10 ^ (Z.of_nat (length []) + Z.max 0 (- 0))) with 1. lia.
Qed.
Lemma sample_document : exists t v, begins_with sample t (str " trailing") /\ ended t (str " trailing") /\ end_visible t (str " trailing") (EndErr true) /\
  means plain_ids t v /\ given_once v /\ doubles v /\
  jaeger_document v = Some [JData [JSpan 57005 48815 (str "getconnection") [JRef (str "CHILD_OF") 43690] 1560276970000000 1000000 (str "p1")
    [JTag (str "span.kind") (JVString (str "client")); JTag (str "component") (JVString (str "postgres")); JTag (str "internal.span.format") (JVString (str "proto"))]]
    {[str "p1" := str "core-services"]}].
Proof.
  exists (doc_tree sample), (doc_value sample).
  assert (E : exists ms, scan_value (2 * length sample + 2) 0 (skip_space sample) = Scanned (TObj ms) (str " trailing") /\ doc_tree sample = TObj ms) by (eexists; split; by vm_compute).
  destruct E as (ms & E & Et). rewrite Et. pose proof (scan_begins _ _ _ E) as Hb. split; [done|]. split; [done|]. split; [right; left; by exists ms|].
  split; [|split; [|split; [|by vm_compute]]].
  - unfold doc_value. rewrite <- Et in *. destruct Hb as (w & l' & _ & _ & Hg & _). eapply (gram_plain plain_ids plain_ids_refl); [exact Hg|by vm_compute].
  - let v := eval vm_compute in (doc_value sample) in change (doc_value sample) with v. nothing_twice.
  - let v := eval vm_compute in (doc_value sample) in change (doc_value sample) with v. no_numbers; apply db_num; apply int_double; try done; vm_compute; lia.
Qed.

Lemma cut_null : begins_with (concat [str " nu"; str "ll"]) TNil [] /\ ended TNil [] /\ ~ end_visible TNil [] (EndErr true) /\
  jaeger_body (Src [str " nu"; str "ll"] (EndErr true)) = None /\ jaeger_body (Src [str " nu"; str "ll"] (EndEOF true)) = Some [].
Proof.
  split; [|split; [done|split; [|by vm_compute]]].
  - exists (str " "), (str "null"). split; [done|]. split; [apply Forall_cons_2; [by left|apply Forall_nil_2]|]. split; [constructor|cbn; lia].
  - intros [[? E]|[[? E]|[E|[? E]]]]; done.
Qed.
