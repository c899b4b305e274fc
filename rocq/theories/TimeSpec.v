(** The Gregorian calendar and times in the format of RFC 3339. *)
From Verif Require Import Base JsonSpec DocSpec.

Definition date : Type := Z * Z * Z.

Definition leap_year (y : Z) : Prop := y mod 4 = 0 /\ (y mod 100 <> 0 \/ y mod 400 = 0).
#[global] Instance leap_year_dec y : Decision (leap_year y).
Proof. unfold leap_year. apply _. Defined.
Definition month_length (y m : Z) : Z :=
  if decide (m = 2) then (if decide (leap_year y) then 29 else 28)
  else if decide (m = 4 \/ m = 6 \/ m = 9 \/ m = 11) then 30 else 31.
Definition valid_date (d : date) : Prop := let '(y, m, d) := d in 1 <= m <= 12 /\ 1 <= d <= month_length y m.
Definition next_day (d : date) : date :=
  let '(y, m, d) := d in
  if decide (d < month_length y m) then (y, m, d + 1) else if decide (m < 12) then (y, m + 1, 1) else (y + 1, 1, 1).

(** The date that is [n] days after January 1, 1970. *)
Inductive calendar : Z -> date -> Prop :=
  | cal_epoch : calendar 0 (1970, 1, 1)
  | cal_next n d : calendar n d -> calendar (n + 1) (next_day d)
  | cal_prev n d : valid_date d -> calendar (n + 1) (next_day d) -> calendar n d.

(** [l] is [x] written with [w] decimal digits. *)
Definition decimals (w : nat) (x : Z) (l : bytes) : Prop := length l = w /\ Forall (fun c => 48 <= c <= 57) l /\ dec_value 0 l = x.

(** A fraction of at most nine digits: so many nanoseconds. *)
Definition nanos_text (ns : Z) (l : bytes) : Prop :=
  (l = [] /\ ns = 0) \/
  exists ds, l = 46 :: ds /\ digits ds /\ (length ds <= 9)%nat /\ ns = dec_value 0 ds * 10 ^ (9 - Z.of_nat (length ds)).
(** The offset from UTC in seconds. *)
Definition offset_text (off : Z) (l : bytes) : Prop :=
  (l = [90] /\ off = 0) \/
  exists sign h m hh mm, l = sign :: hh ++ 58 :: mm /\ decimals 2 h hh /\ decimals 2 m mm /\ h <= 23 /\ m <= 59 /\
    (sign = 43 /\ off = (h * 60 + m) * 60 \/ sign = 45 /\ off = - ((h * 60 + m) * 60)).

(** RFC 3339, section 5.6, without leap seconds and with upper case letters: [l] names the instant [ns] nanoseconds after 1970
    (in UTC). *)
Definition rfc3339 (l : bytes) (ns : Z) : Prop :=
  exists n y mo d h mi s f off ty tmo td th tmi ts tf tz,
    l = ty ++ 45 :: tmo ++ 45 :: td ++ 84 :: th ++ 58 :: tmi ++ 58 :: ts ++ tf ++ tz /\
    decimals 4 y ty /\ decimals 2 mo tmo /\ decimals 2 d td /\ decimals 2 h th /\ decimals 2 mi tmi /\ decimals 2 s ts /\
    calendar n (y, mo, d) /\ h <= 23 /\ mi <= 59 /\ s <= 59 /\ nanos_text f tf /\ offset_text off tz /\
    ns = (n * 86400 + h * 3600 + mi * 60 + s - off) * 1000000000 + f.

(** Quoted, as JSON. *)
Definition quoted (l : bytes) : bytes := 34 :: l ++ [34].
