(** Model of the goroutines of the program and the memory that they share (C92): which places are read and written, and
    through which channels, locks and pools references travel.  The data themselves are left out; wherever the code decides
    by data, any choice is possible.  Memory that never leaves its goroutine is left out as well.

    Goroutines hold references in variables.  References to memory that its maker does not write any more (finished memory:
    texts, messages, converted traces, batches) are not followed one by one: when a value is sent, stored or taken out,
    all such references of its source may be among it ([s_see] and the second components below). *)
From Verif Require Import Base RaceSpec.
Local Open Scope nat_scope.

Inductive thread :=
  | THandler (n : nat)   (* an HTTP request: handlers.go:16-63, 85-99, codec *)
  | TClaim (n : nat)     (* balance/receiver.go:75-95 *)
  | TFetcher (n : nat)   (* sarama: fills the messages of a claim *)
  | TSender              (* balance/sender.go:26-34, encoder.go *)
  | TProducer            (* sarama: reads the messages *)
  | TCorrector           (* correct.go:158-300 *)
  | TForwarder           (* main.go:182-205 *)
  | TSink                (* datadog/converter.go:51-151 *)
  | TSubmit              (* datadog/converter.go:23-49 *)
  | TRing                (* buffer.go:19-30 *)
  | TAdmin (n : nat).    (* a request for /spans: buffer.go:32-44, or a reader of the cache's gauges: cache.go:71-89 *)

Inductive chan := CHttp | CKafka | CProducer | CClaim (n : nat) | CSource | CTarget (ring : bool) | CGrouped.
Inductive lock := MCache | MRing.

(** Places: tag maps, elements of a trace's array, bytes (of strings, of Kafka's messages, of large buffers), objects of
    pools (buffers and slices of spanV1; encoders), elements of the encoders' arrays, the interning cache, the ring of recent
    spans, Datadog spans and the maps and slices that group them. *)
Inductive place := LMap (n : nat) | LCell (n : nat) | LBytes (n : nat) | LPooled (n : nat) | LEncoder (n : nat) | LSlab (n k : nat) | LCache | LRing | LBatch (n : nat).

Global Instance thread_eq : EqDecision thread. Proof. solve_decision. Defined.
Global Instance chan_eq : EqDecision chan. Proof. solve_decision. Defined.
Global Instance lock_eq : EqDecision lock. Proof. solve_decision. Defined.
Global Instance place_eq : EqDecision place. Proof. solve_decision. Defined.

(** A message: what its receiver may write, and the finished memory to which it may refer. *)
Record message := Msg { m_own : list place; m_refs : list place }.

(** An HTTP handler or a claim: objects of pools in its hands, tag maps under construction, tag maps of spans that are
    ready to be sent. *)
Record worker := Worker { w_pool : list nat; w_maps : list nat; w_out : list nat }.

(** An encoder: its address; array and next free element, for bytes and for slices (encoder.go:28-31). *)
Record enc := Enc { e_id : nat; e_buf : nat * nat; e_slices : nat * nat }.

(** [Sender]: waiting; with a span (its tag map, or nil); encoding, with the parts of the message that are finished; with
    a message, after the encoder was put back. *)
Inductive sender := SIdle | SSpan (m : option nat) | SEnc (m : option nat) (e : enc) (msg : list place) | SMsg (msg : list place).

(** [forwardSpansToChannels]: waiting; converting (elements and tag maps of the trace); sending to the targets. *)
Inductive forward := FIdle | FConv (x : list place) | FSend (x : list place) (sink ring : bool).

Record state := State {
  s_next : nat;                       (* addresses from here on are unused *)
  s_queue : chan -> list message;
  s_lock : lock -> option thread;
  s_kept : lock -> list place;        (* finished memory to which what the lock protects refers *)
  s_pool : list (nat * list place);   (* free objects and the finished memory to which they refer *)
  s_encs : list enc;
  s_see : thread -> list place;
  s_work : thread -> worker;
  s_send : sender;
  s_table : list place;               (* tag maps and arrays of the traces that the corrector holds *)
  s_fwd : forward;
  s_batch : list place }.

Definition init : state :=
  State 0 (fun _ => []) (fun _ => None) (fun _ => []) [] [] (fun _ => []) (fun _ => Worker [] [] []) SIdle [] FIdle [].

(** Changes of single fields. *)
Definition put {A B} `{EqDecision A} (f : A -> B) (a : A) (b : B) : A -> B := fun a' => if decide (a' = a) then b else f a'.
Definition set_next v s := State v (s_queue s) (s_lock s) (s_kept s) (s_pool s) (s_encs s) (s_see s) (s_work s) (s_send s) (s_table s) (s_fwd s) (s_batch s).
Definition set_queue c v s := State (s_next s) (put (s_queue s) c v) (s_lock s) (s_kept s) (s_pool s) (s_encs s) (s_see s) (s_work s) (s_send s) (s_table s) (s_fwd s) (s_batch s).
Definition set_lock m v s := State (s_next s) (s_queue s) (put (s_lock s) m v) (s_kept s) (s_pool s) (s_encs s) (s_see s) (s_work s) (s_send s) (s_table s) (s_fwd s) (s_batch s).
Definition set_kept m v s := State (s_next s) (s_queue s) (s_lock s) (put (s_kept s) m v) (s_pool s) (s_encs s) (s_see s) (s_work s) (s_send s) (s_table s) (s_fwd s) (s_batch s).
Definition set_pool v s := State (s_next s) (s_queue s) (s_lock s) (s_kept s) v (s_encs s) (s_see s) (s_work s) (s_send s) (s_table s) (s_fwd s) (s_batch s).
Definition set_encs v s := State (s_next s) (s_queue s) (s_lock s) (s_kept s) (s_pool s) v (s_see s) (s_work s) (s_send s) (s_table s) (s_fwd s) (s_batch s).
Definition set_see t v s := State (s_next s) (s_queue s) (s_lock s) (s_kept s) (s_pool s) (s_encs s) (put (s_see s) t v) (s_work s) (s_send s) (s_table s) (s_fwd s) (s_batch s).
Definition set_work t v s := State (s_next s) (s_queue s) (s_lock s) (s_kept s) (s_pool s) (s_encs s) (s_see s) (put (s_work s) t v) (s_send s) (s_table s) (s_fwd s) (s_batch s).
Definition set_send v s := State (s_next s) (s_queue s) (s_lock s) (s_kept s) (s_pool s) (s_encs s) (s_see s) (s_work s) v (s_table s) (s_fwd s) (s_batch s).
Definition set_table v s := State (s_next s) (s_queue s) (s_lock s) (s_kept s) (s_pool s) (s_encs s) (s_see s) (s_work s) (s_send s) v (s_fwd s) (s_batch s).
Definition set_fwd v s := State (s_next s) (s_queue s) (s_lock s) (s_kept s) (s_pool s) (s_encs s) (s_see s) (s_work s) (s_send s) (s_table s) v (s_batch s).
Definition set_batch v s := State (s_next s) (s_queue s) (s_lock s) (s_kept s) (s_pool s) (s_encs s) (s_see s) (s_work s) (s_send s) (s_table s) (s_fwd s) v.

Notation act := (action chan lock place place).
Notation log := (list (thread * act)).

Definition is_worker (t : thread) : bool := match t with THandler _ | TClaim _ => true | _ => false end.
(** Who uses which lock: the cache is used by everyone who decodes (codec/json.go:28-38, bind.go:33-43, binary.go:133-172)
    and by its gauges; the ring by its goroutine and by /spans. *)
Definition may_lock (t : thread) (m : lock) : bool :=
  match t, m with THandler _, MCache | TClaim _, MCache | TAdmin _, _ | TRing, MRing => true | _, _ => false end.
Definition protected (m : lock) : place := match m with MCache => LCache | MRing => LRing end.

(** Who receives from which channel (main.go:75-150); [kafka]: with load balancing. *)
Definition may_recv (kafka : bool) (t : thread) (c : chan) : bool :=
  match t, c with
  | TClaim n, CClaim n' => bool_decide (n = n')
  | TSender, CHttp => kafka | TCorrector, CHttp => negb kafka | TCorrector, CKafka => kafka
  | TProducer, CProducer | TForwarder, CSource | TSink, CTarget false | TRing, CTarget true | TSubmit, CGrouped => true
  | _, _ => false end.

(** Steps. *)
Inductive event :=
  (* any goroutine: reading finished memory; locks and what they protect *)
  | ELook (t : thread) (x : place)
  | ELock (t : thread) (m : lock) | EUse (t : thread) (m : lock) (w : bool) | EUnlock (t : thread) (m : lock)
  (* receiving where only finished memory arrives: claims, producer, sink, ring, submit *)
  | ERecv (t : thread) (c : chan)
  (* workers *)
  | EPoolNew (t : thread) | EPoolGet (t : thread) (i : nat) | EPoolUse (t : thread) (p : nat) (w : bool) | EPoolPut (t : thread) (p : nat)
  | EString (t : thread) | EMap (t : thread) | ETag (t : thread) (m : nat) (w : bool) | EReady (t : thread) | EPut (t : thread) | EPutNil (t : thread)
  (* sarama's fetchers *)
  | EFetch (n : nat) | EDeliver (n : nat)
  (* sender *)
  | ESpan | EEncNew | EEncGet (i : nat) | EEncUse (w : bool) | EEncTags | EArray (slices : bool) | ECell (slices : bool) (k : nat) (w : bool)
  | ECarve (slices : bool) (n : nat) | EMoved | EEncPut | EMessage
  (* corrector *)
  | ETake | ENewMap | ENewCell | ETable (x : place) (w : bool) | EEmit (x : list place)
  (* forwarder *)
  | EConvert | EConvMap | EConv (x : place) (w : bool) | EConverted | EForward (ring : bool) | EForwarded
  (* sink *)
  | EBatchNew | EBatch (x : place) (w : bool) | EFlush | EDiscard.

Definition access (t : thread) (x : place) (w : bool) : log := [(t, if w then AWrite x else ARead x)].
Definition fits (c : chan) (s : state) : bool := length (s_queue s c) <? match c with CSource => 64 | CGrouped => 8 | _ => 256 end.
Definition send (t : thread) (c : chan) (own : list place) (s : state) : log * state :=
  ([(t, ASend c)], set_queue c (s_queue s c ++ [Msg own (s_see s t)]) s).
Definition learn (t : thread) (l : list place) (s : state) : state := set_see t (s_see s t ++ l) s.
Definition maps (l : list nat) : list place := map LMap l.
Definition map_of (own : list place) : option nat := match own with LMap m :: _ => Some m | _ => None end.
Definition slab (e : enc) (slices : bool) : nat * nat := if slices then e_slices e else e_buf e.
Definition set_slab (e : enc) (slices : bool) (v : nat * nat) : enc := if slices then Enc (e_id e) (e_buf e) v else Enc (e_id e) v (e_slices e).

Definition step (kafka : bool) (e : event) (s : state) : option (log * state) :=
  match e with
  | ELook t x => if decide (x ∈ s_see s t) then Some (access t x false, s) else None
  | ELock t m => if may_lock t m then match s_lock s m with None => Some ([(t, ALock m)], learn t (s_kept s m) (set_lock m (Some t) s)) | _ => None end else None
  | EUse t m w => if decide (s_lock s m = Some t) then Some (access t (protected m) w, s) else None
  | EUnlock t m => if decide (s_lock s m = Some t) then Some ([(t, AUnlock m)], set_kept m (s_kept s m ++ s_see s t) (set_lock m None s)) else None
  | ERecv t c =>
      if may_recv kafka t c then
        match c, s_queue s c with
        | (CHttp | CKafka | CSource), _ | _, [] => None
        | _, Msg _ refs :: q => Some ([(t, ARecv c)], learn t refs (set_queue c q s)) end
      else None

  (* json-v1.go:50-66, json-v2.go:31-35, binary.go:153-158: [Get] makes a new object or returns a free one *)
  | EPoolNew t => if is_worker t then let w := s_work s t in
      Some ([], set_next (S (s_next s)) (set_work t (Worker (s_next s :: w_pool w) (w_maps w) (w_out w)) s)) else None
  | EPoolGet t i => if is_worker t then match s_pool s !! i with
      | Some (p, refs) => let w := s_work s t in
          Some ([(t, AGet (LPooled p))], learn t refs (set_pool (delete i (s_pool s)) (set_work t (Worker (p :: w_pool w) (w_maps w) (w_out w)) s)))
      | None => None end else None
  | EPoolUse t p w => if decide (p ∈ w_pool (s_work s t)) then Some (access t (LPooled p) w, s) else None
  | EPoolPut t p => let w := s_work s t in if decide (p ∈ w_pool w) then
      Some ([(t, APut (LPooled p))], set_pool (s_pool s ++ [(p, s_see s t)]) (set_work t (Worker (filter (fun q => q <> p) (w_pool w)) (w_maps w) (w_out w)) s)) else None
  (* cache.go:45-48, binary.go:145-151: bytes are written once, then they are a string *)
  | EString t => if is_worker t then Some (access t (LBytes (s_next s)) true, set_next (S (s_next s)) (learn t [LBytes (s_next s)] s)) else None
  (* a span gets its tag map, and the map its tags (json-v1.go:95-106, json-v2.go:58-86, jaeger.go:65-123, binary.go:31-61) *)
  | EMap t => if is_worker t then let w := s_work s t in
      Some (access t (LMap (s_next s)) true, set_next (S (s_next s)) (set_work t (Worker (w_pool w) (s_next s :: w_maps w) (w_out w)) s)) else None
  | ETag t m w => if decide (m ∈ w_maps (s_work s t)) then Some (access t (LMap m) w, s) else None
  (* the parser returns its spans (handlers.go:86, receiver.go:83); then they are sent (handlers.go:91-93, main.go:143) *)
  | EReady t => let w := s_work s t in Some ([], set_work t (Worker (w_pool w) [] (w_out w ++ w_maps w)) s)
  | EPut t => let w := s_work s t in
      let c := match t with TClaim _ => CKafka | _ => CHttp end in
      match w_out w with
      | m :: out => if fits c s then Some (send t c [LMap m] (set_work t (Worker (w_pool w) (w_maps w) out) s)) else None
      | [] => None end
  | EPutNil t => let c := match t with TClaim _ => CKafka | _ => CHttp end in
      if is_worker t && fits c s then Some (send t c [] s) else None

  | EFetch n => Some (access (TFetcher n) (LBytes (s_next s)) true, set_next (S (s_next s)) (learn (TFetcher n) [LBytes (s_next s)] s))
  | EDeliver n => if fits (CClaim n) s then Some (send (TFetcher n) (CClaim n) [] s) else None

  (* sender.go:26-34 *)
  | ESpan => if kafka then match s_send s, s_queue s CHttp with
      | SIdle, Msg own refs :: q => Some ([(TSender, ARecv CHttp)], learn TSender refs (set_send (SSpan (map_of own)) (set_queue CHttp q s)))
      | _, _ => None end else None
  (* encoder.go:15-26: an encoder from the pool *)
  | EEncNew => match s_send s with
      | SSpan m => Some ([], set_next (S (S (S (s_next s)))) (set_send (SEnc m (Enc (s_next s) (S (s_next s), 0) (S (S (s_next s)), 0)) []) s))
      | _ => None end
  | EEncGet i => match s_send s, s_encs s !! i with
      | SSpan m, Some e => Some ([(TSender, AGet (LEncoder (e_id e)))], set_encs (delete i (s_encs s)) (set_send (SEnc m e []) s))
      | _, _ => None end
  | EEncUse w => match s_send s with SEnc m e msg => Some (access TSender (LEncoder (e_id e)) w, s) | _ => None end
  (* codec.BinaryEncode reads the tags (encoder.go:58) *)
  | EEncTags => match s_send s with SEnc (Some m) e msg => Some (access TSender (LMap m) false, s) | _ => None end
  (* encoder.go:37-44: new arrays *)
  | EArray b => match s_send s with
      | SEnc m e msg => Some ([], set_next (S (s_next s)) (set_send (SEnc m (set_slab e b (s_next s, 0)) msg) s))
      | _ => None end
  (* encoder.go:48-58, 70: elements from the free part are written, and read *)
  | ECell b k w => match s_send s with
      | SEnc m e msg => if decide (snd (slab e b) <= k) then Some (access TSender (LSlab (fst (slab e b)) k) w, s) else None
      | _ => None end
  (* encoder.go:50, 53, 61-63: the first free elements become part of the message *)
  | ECarve b n => match s_send s with
      | SEnc m e msg => let '(a, off) := slab e b in
          Some ([], set_send (SEnc m (set_slab e b (a, off + n)) (msg ++ map (LSlab a) (seq off n))) s)
      | _ => None end
  (* encoder.go:57: a long message moves to an array of its own *)
  | EMoved => match s_send s with
      | SEnc m e msg => Some (access TSender (LBytes (s_next s)) true, set_next (S (s_next s)) (learn TSender [LBytes (s_next s)] s))
      | _ => None end
  (* encoder.go:23: the encoder goes back to the pool; then the message is sent (sender.go:33) *)
  | EEncPut => match s_send s with
      | SEnc m e msg => Some ([(TSender, APut (LEncoder (e_id e)))], set_encs (s_encs s ++ [e]) (set_send (SMsg msg) s))
      | _ => None end
  | EMessage => match s_send s with
      | SMsg msg => if fits CProducer s then Some (send TSender CProducer [] (learn TSender msg (set_send SIdle s))) else None
      | _ => None end

  (* correct.go:170: a span arrives; its tag map now belongs to a trace *)
  | ETake => let c := if kafka then CKafka else CHttp in
      match s_queue s c with
      | Msg own refs :: q => Some ([(TCorrector, ARecv c)], learn TCorrector refs (set_table (own ++ s_table s) (set_queue c q s)))
      | [] => None end
  (* proxy/span.go:51-57, correct.go:308-330; correct.go:565-573: new tag maps, new elements in the array of a trace *)
  | ENewMap => Some (access TCorrector (LMap (s_next s)) true, set_next (S (s_next s)) (set_table (LMap (s_next s) :: s_table s) s))
  | ENewCell => Some (access TCorrector (LCell (s_next s)) true, set_next (S (s_next s)) (set_table (LCell (s_next s) :: s_table s) s))
  (* merging, correcting, adding tags *)
  | ETable x w => if decide (x ∈ s_table s) then Some (access TCorrector x w, s) else None
  (* correct.go:277-282: the trace leaves the table and is sent *)
  | EEmit x => if decide (x ⊆ s_table s) then
      if fits CSource s then Some (send TCorrector CSource x (set_table (filter (fun y => y ∉ x) (s_table s)) s)) else None
      else None

  (* main.go:202 *)
  | EConvert => match s_fwd s, s_queue s CSource with
      | FIdle, Msg own refs :: q => Some ([(TForwarder, ARecv CSource)], learn TForwarder refs (set_fwd (FConv own) (set_queue CSource q s)))
      | _, _ => None end
  (* main.go:188-195: the converter may read and change the span it gets and may make a new tag map *)
  | EConvMap => match s_fwd s with
      | FConv x => Some (access TForwarder (LMap (s_next s)) true, set_next (S (s_next s)) (set_fwd (FConv (LMap (s_next s) :: x)) s))
      | _ => None end
  | EConv y w => match s_fwd s with FConv x => if decide (y ∈ x) then Some (access TForwarder y w, s) else None | _ => None end
  (* main.go:197-199 *)
  | EConverted => match s_fwd s with FConv x => Some ([], learn TForwarder x (set_fwd (FSend x false false) s)) | _ => None end
  | EForward r => match s_fwd s with
      | FSend x a b => if (if r then b else a) then None else if fits (CTarget r) s then
          Some (send TForwarder (CTarget r) [] (set_fwd (if r then FSend x a true else FSend x true b) s)) else None
      | _ => None end
  | EForwarded => match s_fwd s with FSend x true true => Some ([], set_fwd FIdle s) | _ => None end

  (* converter.go:91-131: Datadog spans, the map and its slices *)
  | EBatchNew => Some (access TSink (LBatch (s_next s)) true, set_next (S (s_next s)) (set_batch (LBatch (s_next s) :: s_batch s) s))
  | EBatch x w => if decide (x ∈ s_batch s) then Some (access TSink x w, s) else None
  (* converter.go:137-147 *)
  | EFlush => if fits CGrouped s then Some (send TSink CGrouped [] (set_batch [] (learn TSink (s_batch s) s))) else None
  | EDiscard => Some ([], set_batch [] s)
  end.

Fixpoint run (kafka : bool) (evs : list event) (s : state) : option (log * state) :=
  match evs with
  | [] => Some ([], s)
  | e :: evs' => match step kafka e s with
      | Some (l, s') => match run kafka evs' s' with Some (l', s'') => Some (l ++ l', s'') | None => None end
      | None => None end
  end.
