(** * pyudunits2/_datetime.py *)
From Verif Require Import PyBase PyNum.
Open Scope Z_scope.

(** Time, 6-11 *)
Record time := mkTime { hour : Z; minute : Z; second : Z; microseconds : Z }.

(** f"{z:0w}": zeros between the sign and the digits up to width w *)
Definition zfill (w : nat) (z : Z) : str :=
  let ds := N_str (Z.abs_N z) in
  if z <? 0 then 45%N :: repeat 48%N (w - 1 - List.length ds) ++ ds
  else repeat 48%N (w - List.length ds) ++ ds.

(** Time.__str__, 13-19 *)
Definition time_str (t : time) : str :=
  zfill 2 (hour t) ++ u ":" ++ zfill 2 (minute t)
  ++ (if negb (second t =? 0) || negb (microseconds t =? 0) then u ":" ++ zfill 2 (second t) else [])
  ++ (if negb (microseconds t =? 0) then u "." ++ zfill 8 (microseconds t) else []).

(** the generated Time.__eq__, 6 *)
Definition time_eqb (a b : time) : bool :=
  (hour a =? hour b) && (minute a =? minute b) && (second a =? second b) && (microseconds a =? microseconds b).

(** DateTime.tz_offset, 28: a Time or a str *)
Inductive offset := OTime (t : time) | OText (s : str).
Definition offset_eqb (a b : offset) : bool :=
  match a, b with OTime x, OTime y => time_eqb x y | OText x, OText y => str_eqb x y | _, _ => false end.

(** DateTime, 22-30 *)
Record datetime := mkDateTime { year : Z; month : Z; day : Z; dtime : time; tz_offset : offset; raw_content : option str }.

(** DateTime.__eq__ on DateTimes, 32-43 *)
Definition datetime_eqb (a b : datetime) : bool :=
  (year a =? year b) && (month a =? month b) && (day a =? day b) && time_eqb (dtime a) (dtime b) && offset_eqb (tz_offset a) (tz_offset b).

(** The __hash__ generated by dataclass(frozen=True), 22: eq is left to the class but the
    hash is that of the tuple of all six fields, the raw text included.  [H] is the
    interpreter's hash of such a tuple. *)
Definition hashed (d : datetime) : Z * Z * Z * time * offset * option str :=
  (year d, month d, day d, dtime d, tz_offset d, raw_content d).
(** the hash generated for DateTime, _datetime.py:22: that of the tuple of all fields *)
Definition datetime_hash (H : Z * Z * Z * time * offset * option str -> Z) (d : datetime) : Z := H (hashed d).

(** parse_udunits_date, 46-49 *)
Definition parse_udunits_date (content : str) : res datetime := Err ENotImplemented.
