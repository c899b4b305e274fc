(** Property C79: reading arrays and objects with consumers. *)
From Verif Require Import Base JsonModel JsonSpec ParseSpec LooseSpec ReadModel ReadSpec ReadProofs.

(** C79: if the consumer reads one value, [ReadArray] reads an array of such values, calling the consumer once for each of
    them in order, and stops right after the array.  So it can itself serve as a consumer. *)
Theorem C79_array :
  forall S fuel cap (consumer : S -> pstate -> pres S) P f, (5 <= cap)%nat ->
  reads fuel cap consumer P f -> reads fuel cap (ReadArray fuel consumer) (array_of P) (over_array f).
Proof. intros S fuel cap consumer P f Hcap. exact (array_reads fuel cap Hcap consumer P f). Qed.
Print Assumptions C79_array.

(** C79: the same for [ReadObject], whose consumer is given the key. *)
Theorem C79_object :
  forall S fuel cap (consumer : bytes -> S -> pstate -> pres S) P f, (5 <= cap)%nat ->
  (forall key, reads fuel cap (consumer key) (P key) (f key)) -> reads fuel cap (ReadObject fuel consumer) (object_of P) (over_object f).
Proof. intros S fuel cap consumer P f Hcap. exact (object_reads fuel cap Hcap consumer P f). Qed.
Print Assumptions C79_object.

(** C79: if the consumer succeeds on nothing else, neither do these. *)
Theorem C79_array_only :
  forall S fuel cap (consumer : S -> pstate -> pres S) P f, (5 <= cap)%nat ->
  reads_only cap consumer P f -> reads_only cap (ReadArray fuel consumer) (array_of P) (over_array f).
Proof. intros S fuel cap consumer P f Hcap. exact (array_reads_only fuel cap Hcap consumer P f). Qed.
Print Assumptions C79_array_only.

Theorem C79_object_only :
  forall S fuel cap (consumer : bytes -> S -> pstate -> pres S) P f, (5 <= cap)%nat ->
  (forall key, reads_only cap (consumer key) (P key) (f key)) -> reads_only cap (ReadObject fuel consumer) (object_of P) (over_object f).
Proof. intros S fuel cap consumer P f Hcap. exact (object_reads_only fuel cap Hcap consumer P f). Qed.
Print Assumptions C79_object_only.

(** C79: consumers that call [ReadString]. *)
Theorem C79_strings :
  forall fuel cap, (5 <= cap)%nat ->
  reads fuel cap (strings fuel) a_string (fun s v => s ++ [string_of v]) /\ reads_only cap (strings fuel) a_string (fun s v => s ++ [string_of v]).
Proof. intros fuel cap Hcap. exact (conj (strings_reads fuel cap Hcap) (strings_reads_only fuel cap Hcap)). Qed.
Print Assumptions C79_strings.

(** C79 with [Skip]: on every body, the number of elements, exactly if the body begins with an array ... *)
Theorem C79_count :
  forall fuel buf chunks e, (5 <= length buf)%nat -> no_eager_error e ->
  (length chunks + length (concat chunks) < fuel)%nat -> (2 * length (concat chunks) + 2 < fuel)%nat -> forall n rest,
  (exists st, ReadArray fuel (counting fuel) 0%nat (new_parser (Src chunks e) buf) = POk n st /\ unread st = rest) <->
  exists vs, document (length buf) (concat chunks) (JArr vs) rest /\ length vs = n.
Proof. exact count_exact. Qed.
Print Assumptions C79_count.

(** ... and the keys in order, repeated ones repeatedly, exactly if it begins with an object. *)
Theorem C79_keys :
  forall fuel buf chunks e, (5 <= length buf)%nat -> no_eager_error e ->
  (length chunks + length (concat chunks) < fuel)%nat -> (2 * length (concat chunks) + 2 < fuel)%nat -> forall ks rest,
  (exists st, ReadObject fuel (keys fuel) [] (new_parser (Src chunks e) buf) = POk ks st /\ unread st = rest) <->
  exists ms, document (length buf) (concat chunks) (JObj ms) rest /\ map fst ms = ks.
Proof. exact keys_exact. Qed.
Print Assumptions C79_keys.

(** C79: a consumer has to read.  One that does not is called for ever on every array that is not empty. *)
Theorem C79_idle :
  forall S fuel cap (s : S) st w v vs l rest, (5 <= cap)%nat -> before cap st (w ++ l ++ rest) -> ws w -> loose cap (JArr (v :: vs)) l ->
  ReadArray fuel idle s st = PHang.
Proof. intros S. exact idle_hangs. Qed.
Print Assumptions C79_idle.

(** An object of arrays of strings, delivered in three pieces through a buffer of eight bytes; a missing bracket; a number
    among the strings; a consumer that does not read. *)
Example C79_instance :
  let buf := replicate 8 0 in
  let go chunks := match ReadObject 100 (flatten 100) [] (new_parser (Src chunks (EndEOF false)) buf) with POk r st => Some (r, unread st) | _ => None end in
  go [str "{""a"": [""x"",""y"; str """], ""b"": []"; str ",""a"":[""\n""]}}"] = Some ([str "a"; str "x"; str "y"; str "b"; str "a"; str "n"], str "}") /\
  go [str "{""a"": [""x"""] = None /\ go [str "{""a"": [""x"",1]}"] = None /\ go [str "{""a"": []]"] = None /\
  ReadArray 100 (@idle nat) 0%nat (new_parser (Src [str "[1]"] (EndEOF false)) buf) = PHang /\
  (exists st, ReadArray 100 (counting 100) 0%nat (new_parser (Src [str " [1, {}, [2,3] ""a""] "] (EndEOF false)) buf) = POk 4%nat st) /\
  (forall key, reads 100 8 (flatten 100 key) (array_of a_string) (fun s v => over_array (fun s v => s ++ [string_of v]) (s ++ [key]) v)).
Proof.
  split; [by vm_compute|]. split; [by vm_compute|]. split; [by vm_compute|]. split; [by vm_compute|]. split; [by vm_compute|].
  split; [by eexists; vm_compute|]. intros key s. exact (array_reads 100 8 ltac:(lia) _ _ _ (strings_reads 100 8 ltac:(lia)) (s ++ [key])).
Qed.
