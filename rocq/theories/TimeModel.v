(** Model of proxy/timestamp.go:24-26 and 36-47: timestamps as JSON.

    They are methods of Go's [time.Time] (version 1.15): [time.Unix], [Time.MarshalJSON] (with [AppendFormat] for the layout
    RFC3339Nano), [Time.UnmarshalJSON] (with [time.Parse] for the layout RFC3339) and [Time.UnixNano].  The library is not
    part of /repo; the definitions follow its time.go and format.go.  The local time zone is a function from the time
    (seconds since 1970) to the offset in seconds east of UTC. *)
From Verif Require Import Base SpanModel.

(* ---------- time.go ---------- *)

(** time.go [absoluteZeroYear]; [absDate] counts days and years from January 1 of that year, on unsigned numbers.  (The Unix
    epoch is 9223372028715321600 seconds later: -(absoluteToInternal + internalToUnix).) *)
Definition zero_year : Z := -292277022399.
Definition abs_epoch : Z := 9223372028715321600.

Definition is_leap (y : Z) : bool := (Z.rem y 4 =? 0) && (negb (Z.rem y 100 =? 0) || (Z.rem y 400 =? 0)).
(** time.go [daysBefore]. *)
Definition days_before (m : Z) : Z :=
  nth (Z.to_nat m) [0; 31; 59; 90; 120; 151; 181; 212; 243; 273; 304; 334; 365] 0.

(** time.go [absDate]: year and day of the year (from 0) from the number of days. *)
Definition abs_year (d : Z) : Z * Z :=
  let n := d / 146097 in
  let y := 400 * n in let d := d - 146097 * n in
  let n := d / 36524 in let n := n - Z.shiftr n 2 in
  let y := y + 100 * n in let d := d - 36524 * n in
  let n := d / 1461 in
  let y := y + 4 * n in let d := d - 1461 * n in
  let n := d / 365 in let n := n - Z.shiftr n 2 in
  let y := y + n in let d := d - 365 * n in
  (y + zero_year, d).
(** The month (from 1) and the day. *)
Definition abs_month (leap : bool) (day : Z) : Z * Z :=
  if leap && (day =? 59) then (2, 29)
  else
    let day := if leap && (59 <? day) then day - 1 else day in
    let month := Z.quot day 31 in
    let stop := days_before (month + 1) in
    if stop <=? day then (month + 2, day - stop + 1) else (month + 1, day - days_before month + 1).
Definition abs_date (d : Z) : Z * Z * Z :=
  let '(y, yday) := abs_year d in
  let '(m, day) := abs_month (is_leap y) yday in (y, m, day).

(** time.go [daysSinceEpoch] and [Date] in UTC, for fields in their ranges: seconds since 1970. *)
Definition days_since_zero (year : Z) : Z :=
  let y := u64 (year - zero_year) in
  let n := y / 400 in let y := y - 400 * n in let d := 146097 * n in
  let n := y / 100 in let y := y - 100 * n in let d := d + 36524 * n in
  let n := y / 4 in let y := y - 4 * n in let d := d + 1461 * n in
  d + 365 * y.
Definition unix_date (year month day hour min sec : Z) : Z :=
  let d := days_since_zero year + days_before (month - 1) in
  let d := if is_leap year && (3 <=? month) then d + 1 else d in
  let d := d + (day - 1) in
  wrap64 (u64 (d * 86400 + (hour * 3600 + min * 60 + sec)) - abs_epoch).

(** time.go [daysIn]. *)
Definition days_in (m year : Z) : Z := if (m =? 2) && is_leap year then 29 else days_before m - days_before (m - 1).

(** time.go [Unix] with 0 seconds: seconds and nanoseconds. *)
Definition unix_split (ns : Z) : Z * Z :=
  if (ns <? 0) || (1000000000 <=? ns) then
    let n := Z.quot ns 1000000000 in
    let r := ns - n * 1000000000 in
    if r <? 0 then (n - 1, r + 1000000000) else (n, r)
  else (0, ns).
(** time.go [Time.UnixNano]. *)
Definition unix_nano (sec nsec : Z) : Z := wrap64 (sec * 1000000000 + nsec).

(* ---------- format.go ---------- *)

(** format.go [appendInt] with a number of 0 or more and a width. *)
Fixpoint pad_int (width : nat) (x : Z) : bytes :=
  match width with
  | O => []
  | S w => pad_int w (x / 10) ++ [48 + x mod 10]
  end.
Definition append_int (x : Z) (width : nat) : bytes := pad_int width x.

(** format.go [formatNano] with nine digits and [trim]. *)
Fixpoint drop_zeros (l : bytes) : bytes :=
  match l with
  | c :: r => match drop_zeros r with [] => if c =? 48 then [] else [c] | r' => c :: r' end
  | [] => []
  end.
Definition format_nano (ns : Z) : bytes := match drop_zeros (pad_int 9 ns) with [] => [] | l => 46 :: l end.

(** format.go [AppendFormat], case [stdISO8601ColonTZ]. *)
Definition format_zone (offset : Z) : bytes :=
  if offset =? 0 then [90]
  else
    let zone := Z.quot offset 60 in
    let '(sign, zone) := if zone <? 0 then (45, - zone) else (43, zone) in
    sign :: append_int (Z.quot zone 60) 2 ++ [58] ++ append_int (Z.rem zone 60) 2.

(** [AppendFormat] for the layout 2006-01-02T15:04:05.999999999Z07:00.  (Numbers with more digits than the width cannot occur:
    years are below 10000, offsets below 100 hours.) *)
Definition format_time (zone : Z -> Z) (sec nsec : Z) : bytes :=
  let offset := zone sec in
  let abs := u64 (sec + (offset + abs_epoch)) in
  let '(year, month, day) := abs_date (abs / 86400) in
  let s := abs mod 86400 in
  let hour := s / 3600 in let s := s - hour * 3600 in
  let min := s / 60 in let s := s - min * 60 in
  append_int year 4 ++ [45] ++ append_int month 2 ++ [45] ++ append_int day 2 ++ [84] ++
  append_int hour 2 ++ [58] ++ append_int min 2 ++ [58] ++ append_int s 2 ++ format_nano nsec ++ format_zone offset.

(** time.go [Time.MarshalJSON] (the year of a timestamp is between 1677 and 2263, so its error does not occur) and
    proxy/timestamp.go:24-26, 36-38 [Timestamp.MarshalJSON]. *)
Definition ts_marshal_json (zone : Z -> Z) (ts : Z) : bytes :=
  let '(sec, nsec) := unix_split ts in 34 :: format_time zone sec nsec ++ [34].

(** format.go [getnum]: two digits, or one if not [fixed]. *)
Definition digit_val (c : Z) : option Z := if (48 <=? c) && (c <=? 57) then Some (c - 48) else None.
Definition get_num (fixed : bool) (l : bytes) : option (Z * bytes) :=
  match l with
  | a :: r =>
      match digit_val a with
      | None => None
      | Some x =>
          match r with
          | b :: r' => match digit_val b with Some y => Some (x * 10 + y, r') | None => if fixed then None else Some (x, r) end
          | [] => if fixed then None else Some (x, [])
          end
      end
  | [] => None
  end.
(** format.go [skip]: one byte of the layout that is not a space. *)
Definition skip_byte (c : Z) (l : bytes) : option bytes :=
  match l with x :: r => if x =? c then Some r else None | [] => None end.
(** time.go [atoi] on two bytes: a sign is allowed. *)
Definition atoi2 (a b : Z) : option Z :=
  if a =? 45 then option_map Z.opp (digit_val b)
  else if a =? 43 then digit_val b
  else match digit_val a, digit_val b with Some x, Some y => Some (x * 10 + y) | _, _ => None end.
(** The digits at the front. *)
Fixpoint digit_run (l : bytes) : bytes * bytes :=
  match l with
  | c :: r => match digit_val c with Some _ => let '(ds, rest) := digit_run r in (c :: ds, rest) | None => ([], l) end
  | [] => ([], [])
  end.
Fixpoint digits_value (acc : Z) (l : bytes) : Z :=
  match l with c :: r => digits_value (acc * 10 + (c - 48)) r | [] => acc end.
(** format.go [Parse]: a fraction after the seconds although the layout has none; [parseNanoseconds].  ([atoi] also fails when
    the number does not fit an int; that is more than 10^9 too.) *)
Definition parse_fraction (l : bytes) : option (Z * bytes) :=
  match l with
  | p :: r =>
      if p =? 46 then
        let '(ds, rest) := digit_run r in
        match ds with
        | [] => Some (0, l)
        | _ => if 1000000000 <=? digits_value 0 ds then None
               else Some (digits_value 0 ds * 10 ^ Z.max 0 (9 - Z.of_nat (length ds)), rest)
        end
      else Some (0, l)
  | [] => Some (0, [])
  end.
(** format.go [Parse], case [stdISO8601ColonTZ]: the offset in seconds. *)
Definition parse_zone (l : bytes) : option (Z * bytes) :=
  match l with
  | s :: r =>
      if s =? 90 then Some (0, r)
      else match r with
           | h1 :: h2 :: c :: m1 :: m2 :: rest =>
               if c =? 58 then
                 match atoi2 h1 h2, atoi2 m1 m2 with
                 | Some h, Some m =>
                     if s =? 43 then Some ((h * 60 + m) * 60, rest)
                     else if s =? 45 then Some (- ((h * 60 + m) * 60), rest)
                     else None
                 | _, _ => None
                 end
               else None
           | _ => None
           end
  | [] => None
  end.
(** Year: four digits. *)
Definition parse_year (l : bytes) : option (Z * bytes) :=
  match l with
  | a :: b :: c :: d :: r =>
      match digit_val a, digit_val b, digit_val c, digit_val d with
      | Some a, Some b, Some c, Some d => Some (((a * 10 + b) * 10 + c) * 10 + d, r)
      | _, _, _, _ => None
      end
  | _ => None
  end.
Definition within_range (lo hi x : Z) : option unit := if (lo <=? x) && (x <=? hi) then Some tt else None.

(** format.go [Parse] for the layout "2006-01-02T15:04:05Z07:00" (quotes included): seconds and nanoseconds since 1970. *)
Definition parse_time (l : bytes) : option (Z * Z) :=
  l ← skip_byte 34 l;
  '(year, l) ← parse_year l; l ← skip_byte 45 l;
  '(month, l) ← get_num true l; _ ← within_range 1 12 month; l ← skip_byte 45 l;
  '(day, l) ← get_num true l; l ← skip_byte 84 l;
  '(hour, l) ← get_num false l; _ ← within_range 0 23 hour; l ← skip_byte 58 l;
  '(min, l) ← get_num true l; _ ← within_range 0 59 min; l ← skip_byte 58 l;
  '(sec, l) ← get_num true l; _ ← within_range 0 59 sec;
  '(nsec, l) ← parse_fraction l;
  '(offset, l) ← parse_zone l;
  l ← skip_byte 34 l;
  match l with
  | [] => _ ← within_range 1 (days_in month year) day;
          Some (unix_date year month day hour min sec - offset, nsec)
  | _ => None
  end.

(** time.go [Time.UnmarshalJSON]: [null] leaves the zero time, January 1 of the year 1; proxy/timestamp.go:40-47
    [Timestamp.UnmarshalJSON]. *)
Definition ts_unmarshal_json (l : bytes) : option Z :=
  if decide (l = str "null") then Some (unix_nano (-62135596800) 0)
  else '(sec, nsec) ← parse_time l; Some (unix_nano sec nsec).
