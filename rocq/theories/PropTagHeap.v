(** Property C74: traces that were handed on are not changed afterwards. *)
From Verif Require Import Base SpanModel TreeModel FinishModel FinishSpec FinishProofs FinishWitness TagHeapModel TagHeapSpec TagHeapProofs.

(** C74: whatever happens after a trace was handed on, who looks at its spans later, tags included, sees what they were in
    the moment it was handed on. *)
Theorem C74_same :
  forall evs, Forall valid_event (map plain evs) -> omap (look (h_heap (hrun evs).1)) (hrun evs).2 = (run (map plain evs)).2.
Proof. exact same. Qed.
Print Assumptions C74_same.

(** C74: the corrector does not write to a tag map of a trace after it was handed on (so nobody has to lock it). *)
Theorem C74_no_write :
  forall evs l1 l2 t spans l, Forall valid_event (map plain evs) -> (hrun evs).2 = l1 ++ HSent t spans :: l2 -> HWrite l ∈ l2 ->
  forall s, s ∈ spans -> h_tags s <> Some l.
Proof. exact no_write. Qed.
Print Assumptions C74_no_write.

(** C74: no two spans handed on have the same tag map. *)
Theorem C74_exclusive :
  forall evs, Forall valid_event (map plain evs) -> NoDup (sent_refs (hrun evs).2).
Proof. exact exclusive. Qed.
Print Assumptions C74_exclusive.

(** A run: the two sides of span 5 come apart, the server's second (its tags are written to the map of the first) and the
    client's again (a new map, 3); trace 8 gets a fake root without tags; after both are handed on, span 5 comes twice
    more, and only the map of the first of the two is written to. *)
Example C74_instance :
  let y := 1600000000000000000 in
  let sp id parent t k tm := Span id parent t [] [] y 10 {[k := str "v"]} tm in
  let client := Timings y (y + 10) 0 0 in
  let server := Timings 0 0 (y + 5) y in
  let at_ n s := HESpan true map_to_list (seconds n) (seconds n) s in
  let evs := [at_ 0 (sp 5 0 9 (str "a") client); at_ 0 (sp 5 0 9 (str "b") server); at_ 0 (sp 5 0 9 (str "c") client);
              at_ 1 (sp 6 3 8 (str "d") client); at_ 1 (sp 7 3 8 (str "e") client); HETick (plain_tick (seconds 12));
              at_ 13 (sp 5 0 9 (str "f") client); at_ 13 (sp 5 0 9 (str "g") server); HETick (plain_tick (seconds 25)); HEClose] in
  let short e := match e with HWrite l => [(0, [Z.of_nat l])] | HSent t l => [(t, map (fun s => match h_tags s with Some l => Z.of_nat l | None => -1 end) l)] | _ => [] end in
  let tags e := match look (h_heap (hrun evs).1) e with Some (LOut t (Emitted l)) => [(t, map (fun s => map (fun p => p.1) (map_to_list (s_tags s))) l)] | _ => [] end in
  Forall valid_event (map plain evs) /\
  concat (map short (hrun evs).2) = [(0, [0]); (0, [3]); (0, [3]); (0, [3]); (8, [5; 4; -1]); (9, [3]); (0, [6]); (9, [6])] /\
  concat (map tags (hrun evs).2) = [(8, [[str "e"]; [str "d"]; []]); (9, [[str "a"; str "b"; str "c"]]); (9, [[str "f"; str "g"]])].
Proof.
  split; [|by vm_compute]. cbv zeta. cbn [map plain].
  repeat (apply Forall_cons_2; [first [exact I|apply plain_valid|split; [apply map_order_list|by split]]|]). apply Forall_nil_2.
Qed.
