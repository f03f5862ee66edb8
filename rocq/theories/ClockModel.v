(** Model of viscid/npdatetime.py: numbers and text as time spans ([_as_timedelta64_scalar] 153-185), even series of times ([linspace_datetime64] 344-352), times as text ([format_time] 653-727).

    SIMPLIFICATIONS: numbers are rationals, so floating point rounding is left out except in the conversion of the 64 bit integers of a time to floats, which is a parameter of the series;
    the time that is formatted is the number of microseconds since 1970 (what [as_datetime] gives), its date is given as text by the caller of strftime. *)
From Coq Require Import Ascii List Bool Arith ZArith QArith Qround Qabs.
Import ListNotations.
Open Scope Z_scope.

(** ** rounding *)
(* np.round, round half to even *)
Definition rhe (q : Q) : Z := let f := Qfloor (q + (1 # 2)) in if Qeq_bool (q + (1 # 2)) (inject_Z f) && Z.odd f then f - 1 else f.
(* np.isclose(a, b, rtol=1e-4, atol=1e-18) *)
Definition isclose (a : Q) (b : Z) : bool := Qle_bool (Qabs (a - inject_Z b)) ((1 # 1000000000000000000) + (1 # 10000) * Qabs (inject_Z b)).

(** ** time spans *)
(* TIME_UNITS by number: as fs ps ns us ms s m h; TIME_SCALE *)
Definition time_scale (i : nat) : Z := if (i <? 6)%nat then 1000 else 60.
(* 174-184: a number of units; the whole number and its unit, None: ValueError *)
Fixpoint number_to_span (idx : nat) (t : Q) : option (Z * nat) :=
  if isclose t (rhe t) then Some (rhe t, idx)
  else match idx with O => None | S i => number_to_span i (t * inject_Z (time_scale i))%Q end.
(* 157-167: the numbers between colons, in the order of the text *)
Fixpoint zip_sum (factors : list Q) (ts : list Q) : Q := match factors, ts with f :: fs, t :: r => (f * t + zip_sum fs r)%Q | _, _ => 0%Q end.
Definition text_to_span (parts : list Q) : option (Z * nat) :=
  if (3 <? length parts)%nat then None else number_to_span 6 (zip_sum [1; 60; 60 * 60]%Q (rev parts)).

(** ** series *)
(* 344-352 after the times are in one unit; [conv]: the conversion of a 64 bit integer to a float *)
Definition series (conv : Z -> Q) (start stop : Z) (n : nat) (endpoint : bool) : list Z :=
  let div := Z.of_nat n - (if endpoint then 1 else 0) in
  map (fun i => rhe (if (div <=? 0) then conv start else if endpoint && (i =? n - 1)%nat then conv stop else conv start + inject_Z (Z.of_nat i) * ((conv stop - conv start) / inject_Z div))%Q) (seq 0 n).
(* the conversion to a double: 53 significant bits, to nearest, ties to even *)
Definition to_double (z : Z) : Q :=
  let e := Z.log2 (Z.abs z) - 52 in
  if e <=? 0 then inject_Z z else (inject_Z (rhe (inject_Z z / inject_Z (2 ^ e)) * 2 ^ e))%Q.

(** ** text *)
Definition digit (d : Z) : ascii := ascii_of_nat (48 + Z.to_nat d).
Definition text := list ascii.
(* '{0:0nd}' of a number of no more than n digits *)
Fixpoint padded (n : nat) (z : Z) : text := match n with O => [] | S k => padded k (z / 10) ++ [digit (z mod 10)] end.
(* '{0}' of a number *)
Fixpoint decimal (fuel : nat) (z : Z) : text := match fuel with O => [] | S k => if z <? 10 then [digit z] else decimal k (z / 10) ++ [digit (z mod 10)] end.
Definition signed (z : Z) : text := if z <? 0 then "-"%char :: decimal (S (Z.to_nat (- z))) (- z) else decimal (S (Z.to_nat z)) z.
Definition USEC := 1000000.
Definition DAY := 86400 * USEC.
(* strftime '%H:%M:%S' of the datetime *)
Definition hms (us : Z) : text :=
  let s := (us / USEC) mod 86400 in padded 2 (s / 3600) ++ ":"%char :: padded 2 (s / 60 mod 60) ++ ":"%char :: padded 2 (s mod 60).
Definition str (l : list nat) : text := map ascii_of_nat l.
(* 692-702: 'dhms' (d) and 'hms'; int() cuts to zero *)
Definition days_text (days : Z) : text :=
  signed days ++ (if days =? 1 then str [32; 100; 97; 121]%nat else str [32; 100; 97; 121; 115; 32]%nat).     (* " day", " days " *)
Definition format_hms (d : bool) (us : Z) : text := (if d then days_text (Z.quot us DAY) else []) ++ hms us.
(* 722-725: '{0:0.nf}'.format(float('0.' + six digits))[2:] *)
Definition fraction (n : nat) (us6 : Z) : text := padded n (rhe (inject_Z us6 / inject_Z USEC * inject_Z (10 ^ Z.of_nat n)) mod 10 ^ Z.of_nat n).
Definition is_digit (c : ascii) : bool := let n := nat_of_ascii c in ((48 <=? n) && (n <=? 57))%nat.
Definition number_of (t : text) : Z := fold_left (fun a c => 10 * a + (Z.of_nat (nat_of_ascii c) - 48)) t 0.
(* 718-726 with one %f in the format: the first six digits in a row of the text *)
Fixpoint put_fraction (n : nat) (t : text) : text :=
  match t with
  | [] => []
  | c :: r => if forallb is_digit (firstn 6 t) && (6 <=? length t)%nat then fraction n (number_of (firstn 6 t)) ++ skipn 6 t else c :: put_fraction n r
  end.
(* format_time with '<date>%H:%M:%S.%.nf' where the format of the date gives [date us] *)
Definition format_fraction (date : Z -> text) (n : nat) (us : Z) : text := put_fraction n (date us ++ hms us ++ "."%char :: padded 6 (us mod USEC)).
