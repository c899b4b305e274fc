(** What [Timestamp.UnmarshalJSON] takes for a time: more than RFC 3339 (C83). *)
From Verif Require Import Base JsonSpec DocSpec TimeSpec.

(** The hour may have one digit. *)
Definition loose_hour (h : Z) (l : bytes) : Prop := decimals 2 h l \/ decimals 1 h l.
(** Any number of digits may follow the point; they are read as a number of nanoseconds below 10^9, and only fractions of
    fewer than nine digits are scaled. *)
Definition loose_nanos (ns : Z) (l : bytes) : Prop :=
  (l = [] /\ ns = 0) \/
  exists ds, l = 46 :: ds /\ digits ds /\ dec_value 0 ds < 1000000000 /\ ns = dec_value 0 ds * 10 ^ Z.max 0 (9 - Z.of_nat (length ds)).
(** Hours and minutes of the offset: up to 99, or a sign and a digit. *)
Definition loose_pair (x : Z) (l : bytes) : Prop :=
  decimals 2 x l \/ (exists d, l = 43 :: d /\ decimals 1 x d) \/ exists d, l = 45 :: d /\ decimals 1 (- x) d.
Definition loose_offset (off : Z) (l : bytes) : Prop :=
  (l = [90] /\ off = 0) \/
  exists sign h m hh mm, l = sign :: hh ++ 58 :: mm /\ loose_pair h hh /\ loose_pair m mm /\
    (sign = 43 /\ off = (h * 60 + m) * 60 \/ sign = 45 /\ off = - ((h * 60 + m) * 60)).
(** [l] is taken for the instant [ns] nanoseconds after 1970. *)
Definition loose_time (l : bytes) (ns : Z) : Prop :=
  exists n y mo d h mi s f off ty tmo td th tmi ts tf tz,
    l = ty ++ 45 :: tmo ++ 45 :: td ++ 84 :: th ++ 58 :: tmi ++ 58 :: ts ++ tf ++ tz /\
    decimals 4 y ty /\ decimals 2 mo tmo /\ decimals 2 d td /\ loose_hour h th /\ decimals 2 mi tmi /\ decimals 2 s ts /\
    calendar n (y, mo, d) /\ h <= 23 /\ mi <= 59 /\ s <= 59 /\ loose_nanos f tf /\ loose_offset off tz /\
    ns = (n * 86400 + h * 3600 + mi * 60 + s - off) * 1000000000 + f.
