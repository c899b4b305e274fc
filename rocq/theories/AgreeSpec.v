(** Vocabulary for C122: traces in which there is nothing to correct. *)
From Verif Require Import Base SpanModel TreeModel TreeSpec.

(** Whatever reports about one span say when it was sent, received, answered and the answer received: the middle of the request is the
    same for the client and for the server. *)
Definition clocks_agree (l : list span) : Prop :=
  forall w x y z, w ∈ l -> x ∈ l -> y ∈ l -> z ∈ l -> s_id x = s_id w -> s_id y = s_id w -> s_id z = s_id w ->
  tCS (s_timings w) <> 0 -> tCR (s_timings x) <> 0 -> tSR (s_timings y) <> 0 -> tSS (s_timings z) <> 0 ->
  middle (tCS (s_timings w)) (tCR (s_timings x)) = middle (tSR (s_timings y)) (tSS (s_timings z)).

(** A span that starts in 2020 or later, and if all four times are known, with start and duration as the client says. *)
Definition settled (s : span) : Prop :=
  ~ before_2020 (s_ts s) /\ int64_ok (s_dur s) /\
  (four_timings s -> s_ts s = tCS (s_timings s) /\ s_dur s = tCR (s_timings s) - tCS (s_timings s)).
