(** Model of viscid/npdatetime.py 622-648: times rounded to seconds ([datetime_as_seconds], [timedelta_as_seconds], [time_as_seconds]).

    A time is a whole number of a unit (by number as in ClockModel: as fs ps ns us ms s); what [as_datetime64] and [as_timedelta64] make of it is the same number of the same unit.
    SIMPLIFICATIONS: quotients and np.round are exact, that is, floating point rounding is left out; so are 64 bit overflow, NaT and negative [decimals]. *)
From Coq Require Import ZArith QArith Qround.
From Verif Require Import ClockModel.
Open Scope Z_scope.

(* units in a second: np.timedelta64(1, 's') as a number of the unit; the units after the second are left out *)
Definition per_second (u : nat) : Z := 1000 ^ (6 - Z.of_nat u).
(* np.round(x, decimals) *)
Definition round_to (decimals : nat) (x : Q) : Q := (inject_Z (rhe (x * inject_Z (10 ^ Z.of_nat decimals))) / inject_Z (10 ^ Z.of_nat decimals))%Q.
(* 631-639; None: ValueError *)
Definition timedelta_as_seconds (decimals : nat) (n : Z) (u : nat) : option (Z * nat) :=
  number_to_span 6 (round_to decimals (inject_Z n / inject_Z (per_second u))).
(* 622-629: 625 rounds down to a second, 626 is what is left over, 628 adds; the sum of seconds and a span of unit v is in unit v *)
Definition datetime_as_seconds (decimals : nat) (n : Z) (u : nat) : option (Z * nat) :=
  let epoch := n / per_second u in
  match number_to_span 6 (round_to decimals (inject_Z (n - epoch * per_second u) / inject_Z (per_second u))) with
  | Some (k, v) => Some (epoch * per_second v + k, v)
  | None => None
  end.
(* 641-648 *)
Inductive timelike := Date (n : Z) (u : nat) | Span (n : Z) (u : nat) | Number (x : Q).
Inductive rounded := Time (t : Z * nat) | Num (x : Q).
Definition time_as_seconds (decimals : nat) (a : timelike) : option rounded :=
  match a with
  | Date n u => option_map Time (datetime_as_seconds decimals n u)
  | Span n u => option_map Time (timedelta_as_seconds decimals n u)
  | Number x => Some (Num (round_to decimals x))
  end.
