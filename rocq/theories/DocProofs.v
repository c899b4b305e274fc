(** The decoded spans are the described spans. *)
From Verif Require Import Base IdModel IdSpec SpanModel JsonModel CodecModel JsonPure JsonSpec JsonText DocSpec DocSem.

(* ---------- members ---------- *)

Lemma all_values_cons k k' v ms : all_values k ((k', v) :: ms) = if decide (k = k') then v :: all_values k ms else all_values k ms.
Proof.
  unfold all_values. cbn [List.filter fst]. destruct (decide (k = k')) as [->|N].
  - by rewrite bool_decide_true. - by rewrite bool_decide_false by congruence.
Qed.

Lemma last_cons {A} (b : A) bs d : List.last (b :: bs) d = List.last bs b.
Proof. revert b d. induction bs as [|b' bs IH]; intros b d; [done|]. change (List.last (b :: b' :: bs) d) with (List.last (b' :: bs) d). by rewrite !IH. Qed.

Lemma field_cons {A} (f : json -> option A) d k k' v ms :
  field f d k ((k', v) :: ms) = if decide (k = k') then a ← f v; field f a k ms else field f d k ms.
Proof.
  unfold field. rewrite all_values_cons. destruct (decide (k = k')); [|done]. cbn [traverse]. destruct (f v) as [a|]; cbn; [|done].
  destruct (traverse f (all_values k ms)); cbn; [|done]. f_equal. apply last_cons.
Qed.

Lemma field_nil {A} (f : json -> option A) d k : field f d k [] = Some d.
Proof. done. Qed.

Lemma field_app {A} (f : json -> option A) k l1 l2 : forall d, field f d k (l1 ++ l2) = a ← field f d k l1; field f a k l2.
Proof.
  induction l1 as [|[k' v] l1 IH]; intros d; cbn [app]; [done|]. rewrite !field_cons. destruct (decide (k = k')); [|apply IH].
  destruct (f v); cbn; [apply IH|done].
Qed.

Lemma endpoint_sem_field v : forall t, endpoint_sem t v = ms ← as_obj v; field as_str t (str "serviceName") ms.
Proof.
  destruct v; try done. unfold endpoint_sem, struct_sem. cbn [as_obj mbind option_bind]. induction l as [|[k v] ms IH]; intros t; [done|].
  rewrite field_cons. cbn [struct_fold lookup_sem]. destruct (decide (str "serviceName" = k)); [|apply IH].
  destruct (as_str v); cbn; [apply IH|done].
Qed.

Definition service_from (d : gostring) (k : gostring) (ms : list (bytes * json)) : option gostring :=
  match traverse as_obj (all_values k ms) with
  | Some objs => field as_str d (str "serviceName") (concat objs)
  | None => None
  end.

Lemma service_from_cons d k k' v ms :
  service_from d k ((k', v) :: ms) = if decide (k = k') then a ← endpoint_sem d v; service_from a k ms else service_from d k ms.
Proof.
  unfold service_from. rewrite all_values_cons. destruct (decide (k = k')); [|done]. cbn [traverse]. rewrite endpoint_sem_field.
  destruct (as_obj v) as [ms'|]; cbn [mbind option_bind]; [|done].
  destruct (traverse as_obj (all_values k ms)) as [objs|].
  - cbn [concat]. rewrite field_app. done.
  - by destruct (field as_str d (str "serviceName") ms').
Qed.

(** All occurrences, one after the other. *)
Fixpoint through {T} (sem : T -> json -> option T) (t : T) (vs : list json) : option T :=
  match vs with [] => Some t | v :: vs' => t' ← sem t v; through sem t' vs' end.

Lemma field_through {A} (f : json -> option A) k ms : forall d, field f d k ms = through (fun _ => f) d (all_values k ms).
Proof.
  induction ms as [|[k' v] ms IH]; intros d; [done|]. rewrite field_cons, all_values_cons. destruct (decide (k = k')); [|apply IH].
  cbn [through]. destruct (f v); cbn; [apply IH|done].
Qed.

Lemma service_through k ms : forall d, service_from d k ms = through endpoint_sem d (all_values k ms).
Proof.
  induction ms as [|[k' v] ms IH]; intros d; [done|]. rewrite service_from_cons, all_values_cons. destruct (decide (k = k')); [|apply IH].
  cbn [through]. destruct (endpoint_sem d v); cbn; [apply IH|done].
Qed.

Ltac split_key k :=
  match goal with
  | |- context [decide (?n = k)] => destruct (decide (n = k)) as [<-|?]
  end.

Ltac one_value v :=
  match goal with
  | |- context [as_id v] => destruct (as_id v)
  | |- context [as_uint v] => destruct (as_uint v)
  | |- context [as_str v] => destruct (as_str v)
  | |- context [as_map v] => destruct (as_map v)
  | |- context [as_text v] => destruct (as_text v)
  | |- context [endpoint_sem ?t v] => destruct (endpoint_sem t v)
  | |- context [slice_sem ?z ?s ?t v] => destruct (slice_sem z s t v)
  | |- context [array_sem ?s ?t v] => destruct (array_sem s t v)
  end; cbn [mbind option_bind option_map].

Ltac all_through :=
  repeat match goal with
  | |- context [through ?s ?d ?vs] => destruct (through s d vs); cbn [mbind option_bind option_map]; try done
  end.

Lemma v2_fold ms : forall t, struct_fold v2_sems t ms =
  id ← through (fun _ => as_id) (v2_id t) (all_values (str "id") ms);
  tr ← through (fun _ => as_id) (v2_trace t) (all_values (str "traceId") ms);
  par ← through (fun _ => as_id) (v2_parent t) (all_values (str "parentId") ms);
  ts ← through (fun _ => as_uint) (v2_ts t) (all_values (str "timestamp") ms);
  dur ← through (fun _ => as_uint) (v2_dur t) (all_values (str "duration") ms);
  name ← through (fun _ => as_str) (v2_name t) (all_values (str "name") ms);
  kind ← through (fun _ => as_str) (v2_kind t) (all_values (str "kind") ms);
  tags ← through (fun _ => as_map) (v2_tags t) (all_values (str "tags") ms);
  service ← through endpoint_sem (v2_endpoint t) (all_values (str "localEndpoint") ms);
  Some (SpanV2 tr id par name service tags kind ts dur).
Proof.
  induction ms as [|[k v] ms IH]; intros t. { destruct t; done. }
  cbn [struct_fold]. remember (struct_fold v2_sems) as F eqn:HF. clear HF. unfold v2_sems. cbn [lookup_sem]. rewrite !all_values_cons.
  split_key k; [|split_key k; [|split_key k; [|split_key k; [|split_key k; [|split_key k; [|split_key k; [|split_key k; [|split_key k]]]]]]]].
  10: apply IH.
  all: repeat rewrite decide_False by discriminate; rewrite ?decide_True by reflexivity; cbn [through]; unfold at_sem; cbv beta; one_value v; [rewrite IH; done|all_through; done].
Qed.

(* ---------- case folding ---------- *)

Definition lower (c : Z) : bool := (97 <=? c) && (c <=? 122).

Lemma bool_decide_cons {A} `{EqDecision A} (c : A) l l' : bool_decide (c :: l = c :: l') = bool_decide (l = l').
Proof. apply bool_decide_ext. split; [by intros [= ->]|by intros ->]. Qed.

Lemma equal_fold_spec word : forallb lower word = true -> forall s, equal_fold s word = bool_decide (fold_case s = word).
Proof.
  induction word as [|c word IH]; intros Hw s; cbn [forallb] in Hw.
  - destruct s as [|x s]; [done|]. cbn [equal_fold]. symmetry. apply bool_decide_false. cbn [fold_case].
    destruct ((65 <=? x) && (x <=? 90)); [done|]. destruct s as [|y s]; [done|]. destruct ((x =? 197) && (y =? 191)); [done|].
    destruct s as [|z s]; [done|]. by destruct ((x =? 226) && (y =? 132) && (z =? 170)).
  - apply andb_true_iff in Hw as [Hc Hw]. unfold lower in Hc. specialize (IH Hw). destruct s as [|x s]; [done|].
    assert (Hne : forall (x : Z) (l : list Z), x <> c -> false = bool_decide (x :: l = c :: word)) by (intros; symmetry; apply bool_decide_false; congruence).
    cbn [equal_fold fold_case].
    destruct (Z.eqb_spec x c) as [->|N1]; cbn [orb].
    { replace ((65 <=? c) && (c <=? 90)) with false by lia. replace (c =? 197) with false by lia. replace (c =? 226) with false by lia. cbn [andb].
      rewrite IH. destruct s as [|y s]; [by rewrite bool_decide_cons|]. destruct s; by rewrite bool_decide_cons. }
    destruct (Z.eqb_spec x (c - 32)) as [->|N2]; cbn [orb].
    { replace ((65 <=? c - 32) && (c - 32 <=? 90)) with true by lia. replace (c - 32 + 32) with c by lia. by rewrite IH, bool_decide_cons. }
    destruct ((65 <=? x) && (x <=? 90)) eqn:Ex.
    { rewrite <- Hne by lia. destruct s as [|y s]; [done|]. replace (x =? 197) with false by lia. replace (x =? 226) with false by lia. by destruct s. }
    destruct s as [|y s]; [by apply Hne|].
    destruct ((x =? 197) && (y =? 191)) eqn:E1; cbn [andb].
    { destruct (Z.eqb_spec c 115) as [->|N3]; [by rewrite IH, bool_decide_cons|].
      replace (x =? 226) with false by lia. destruct s; by apply Hne. }
    destruct s as [|z s]; [by apply Hne|].
    destruct ((x =? 226) && (y =? 132) && (z =? 170)) eqn:E2; cbn [andb]; [|by apply Hne].
    destruct (Z.eqb_spec c 107) as [->|N4]; cbn [andb]; [by rewrite IH, bool_decide_cons|by apply Hne].
Qed.
