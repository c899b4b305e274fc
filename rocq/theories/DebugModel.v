(** Model of [debugPrintTrace] (correct.go:342-385). *)
From Verif Require Import Base SpanModel TreeModel.

(** The lines that are logged.  Each stands for the text that the format strings of correct.go make of its fields;
    [level] is half the number of spaces before the text (one more pair in [LDeep] and [LMany]). *)
Inductive line :=
  | LHead (trace : Z) (idx : nat)     (* correct.go:380 "Trace %s, root #%d" *)
  | LNode (level : nat) (s : span)    (* correct.go:360-361 *)
  | LDeep (level : nat)               (* correct.go:366 "[...]" *)
  | LMany (level : nat) (n : Z)       (* correct.go:371 "[... %d more children]" *)
  | LBlank.                           (* correct.go:384 *)

(** Log levels of logrus, from the quietest. *)
Inductive loglevel := PanicLevel | FatalLevel | ErrorLevel | WarnLevel | InfoLevel | DebugLevel | TraceLevel.
Global Instance loglevel_eq_dec : EqDecision loglevel.
Proof. solve_decision. Defined.

(** correct.go:347-348. *)
Definition maxLevel : nat := 6.
Definition maxChildCount : nat := 32.

(** What the pointers of a list point to. *)
Definition deref (spans : list span) (l : list nat) : list span := omap (fun i => spans !! i) l.

(** correct.go:357-377 [printNode]; [rest] is [maxLevel - level]. *)
Fixpoint print_node (rest : nat) (spans : list span) (level : nat) (node : span) : list line :=
  let children := deref spans (children_of (s_id node) spans) in
  LNode level node ::
  (fix loop (idx : nat) (l : list span) : list line :=
     match l with
     | [] => []
     | child :: l' =>
         match rest with
         | O => [LDeep level]
         | S rest' =>
             if (idx =? maxChildCount)%nat
             then [LMany level (Z.of_nat (length children) - Z.of_nat maxChildCount + 1)]
             else print_node rest' spans (S level) child ++ loop (S idx) l'
         end
     end) 0%nat children.

(** correct.go:342-385 [debugPrintTrace]. *)
Definition debug_print (lvl : loglevel) (spans : list span) : list line :=
  if decide (lvl = DebugLevel) then
    match deref spans (roots spans) with
    | [] => []
    | root0 :: _ =>
        concat (imap (fun idx root => LHead (s_trace root0) idx :: print_node maxLevel spans 0 root) (deref spans (roots spans))) ++ [LBlank]
    end
  else [].
