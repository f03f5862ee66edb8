(** What a time means, and what converting it should do. *)
From Coq Require Import List ZArith Bool Arith.
From Verif Require Import TimeModel.
Import ListNotations.
Local Open Scope Z_scope.

(** the instant (or the length) in attoseconds, and the length of a unit *)
Definition atto (u : unit_) : Z :=
  match u with
  | AS => 1 | FS => 10 ^ 3 | PS => 10 ^ 6 | NS => 10 ^ 9 | US => 10 ^ 12 | MS => 10 ^ 15
  | S_ => 10 ^ 18 | M_ => 60 * 10 ^ 18 | H_ => 3600 * 10 ^ 18 | D_ => 86400 * 10 ^ 18
  | W_ => 604800 * 10 ^ 18
  end.
Definition instant (t : time) : Z := tval t * atto (tunit t).

(** a proper value: 64 bits and not NaT *)
Definition valid (t : time) : Prop := - 2 ^ 63 < tval t < 2 ^ 63.

(** [t] can be written in unit [v]: as a whole number of 64 bits; for time
    differences numpy also needs the ratio of the units to be below 2^56 *)
Definition fits (t : time) (v : unit_) : Prop :=
  exists y, y * atto v = instant t /\ - 2 ^ 63 < y < 2 ^ 63 /\
            (tkind t = Timedelta -> atto (tunit t) < 2 ^ 56 * atto v).

(** numpy can round [t] to the coarser unit [v] *)
Definition ratio_ok (t : time) (v : unit_) : Prop :=
  tkind t = Timedelta -> atto v < 2 ^ 56 * atto (tunit t).

(** [t'] is [t] rounded down to unit [v] *)
Definition rounded_down (t t' : time) (v : unit_) : Prop :=
  tkind t' = tkind t /\ tunit t' = v /\ instant t' <= instant t < instant t' + atto v.

(** [t] is not the instant one unit before the epoch in a unit so long that it
    has more than 2^64 of the units [v] *)
Definition not_last (t : time) (v : unit_) : Prop :=
  tval t <> -1 \/ tkind t = Timedelta \/ atto (tunit t) < 2 ^ 64 * atto v.
