(** Property C85: reading single literals. *)
From Verif Require Import Base JsonModel JsonSpec ParseSpec LooseSpec ReadModel ReadSpec ReadProofs LiteralModel LiteralSpec LiteralProofs.

(** C85: each of the four methods reads exactly the literals of its type, in their whole length, and returns their token. *)
Theorem C85_methods :
  forall fuel cap, (5 <= cap)%nat ->
  (reads fuel cap (noting (ReadNull fuel)) (a_literal_of TNull) noted /\ reads_only cap (noting (ReadNull fuel)) (a_literal_of TNull) noted) /\
  (reads fuel cap (noting (ReadBoolean fuel)) (a_literal_of TBool) noted /\ reads_only cap (noting (ReadBoolean fuel)) (a_literal_of TBool) noted) /\
  (reads fuel cap (noting (ReadNumber fuel)) (a_literal_of TNumber) noted /\ reads_only cap (noting (ReadNumber fuel)) (a_literal_of TNumber) noted) /\
  (reads fuel cap (noting (ReadString fuel)) (a_literal_of TString) noted /\ reads_only cap (noting (ReadString fuel)) (a_literal_of TString) noted).
Proof. exact readers. Qed.
Print Assumptions C85_methods.

(** C85: [ReadLiteral] reads them all, and nothing else. *)
Theorem C85_literal :
  forall fuel cap, (5 <= cap)%nat ->
  reads fuel cap (noting (ReadLiteral fuel)) a_literal noted /\ reads_only cap (noting (ReadLiteral fuel)) a_literal noted.
Proof. exact literal_exact. Qed.
Print Assumptions C85_literal.

(** C85: what an error says that is found at a byte. *)
Theorem C85_complaint :
  forall expected st b, p_buf st !! p_tail st = Some b -> 0 <= b < 256 -> wrong_type_error expected st = Some (complaint expected b).
Proof. exact complains. Qed.
Print Assumptions C85_complaint.

(** C85: every value of the type has a name, the constants their own, and no two the same. *)
Theorem C85_names :
  (forall ty, type_string (type_value ty) = Some (type_name ty)) /\
  forall i j, 0 <= i < 256 -> 0 <= j < 256 -> is_Some (type_string i) /\ (type_string i = type_string j -> i = j).
Proof. exact (conj type_string_name names_distinct). Qed.
Print Assumptions C85_names.

(** C85 fails for words: [ReadNull] accepts other words than null, [ReadBoolean] other words than true and false. *)
Theorem C85_words_refuted :
  exists fuel chunks buf t st, ReadNull fuel (new_parser (Src chunks (EndEOF false)) buf) = POk t st /\ t_val t <> str "null" /\
  exists chunks' t' st', ReadBoolean fuel (new_parser (Src chunks' (EndEOF false)) buf) = POk t' st' /\ t_val t' <> str "true" /\ t_val t' <> str "false".
Proof. exact words_loose. Qed.
Print Assumptions C85_words_refuted.

(** An array of literals in three pieces through a buffer of eight bytes; the wrong method; two errors. *)
Example C85_instance :
  let buf := replicate 8 0 in
  let open chunks := new_parser (Src chunks (EndEOF false)) buf in
  (match ReadArray 100 (noting (ReadLiteral 100)) [] (open [str "[nul"; str "l, -12.5,""aA"; str """, false true]x"]) with
   | POk r st => r = [Token TNull (str "null"); Token TNumber (str "-12.5"); Token TString (str "aA"); Token TBool (str "false"); Token TBool (str "true")] /\
                 unread st = str "x"
   | _ => False
   end) /\
  ReadNull 100 (open [str " true"]) = PErr /\ ReadBoolean 100 (open [str " null "]) = PErr /\
  (reads 100 8 (ReadArray 100 (noting (ReadLiteral 100))) (array_of a_literal) (over_array noted)) /\
  wrong_type_error TString (new_parser_bytes (str "12")) = Some (str "expected token of type 'TypeString', but found 'TypeNumber'") /\
  wrong_type_error TNull (new_parser_bytes (str "?")) = Some (str "expected token of type 'TypeNull', but found character '?'") /\
  type_string 10 = Some (str "Type(10)") /\ type_string 9 = Some (str "typeWhitespace").
Proof.
  split; [vm_compute; split; reflexivity|]. split; [by vm_compute|]. split; [by vm_compute|].
  split; [exact (array_reads 100 8 ltac:(lia) _ _ _ (proj1 (literal_exact 100 8 ltac:(lia))))|]. by vm_compute.
Qed.
