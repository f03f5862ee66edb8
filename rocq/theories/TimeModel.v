(** Model of viscid/npdatetime.py: changing the unit of datetime64 and timedelta64
    values, and sums and differences of times.

    A numpy time is a kind (datetime64 or timedelta64), a unit and a 64 bit number,
    the smallest of which is NaT.
    SIMPLIFICATION: the units month and year, whose length varies, are left out; the
    text and float constructors of times are left out; one numpy array is one list
    element at a time. *)
From Coq Require Import List ZArith Bool Arith.
Import ListNotations.
Local Open Scope Z_scope.

Inductive unit_ := AS | FS | PS | NS | US | MS | S_ | M_ | H_ | D_ | W_.
(** npdatetime.py 69-72, without 'M' and 'Y' *)
Definition ordered_units : list unit_ := [AS; FS; PS; NS; US; MS; S_; M_; H_; D_; W_].
Definition index (u : unit_) : nat :=
  match u with
  | AS => 0 | FS => 1 | PS => 2 | NS => 3 | US => 4 | MS => 5 | S_ => 6 | M_ => 7 | H_ => 8
  | D_ => 9 | W_ => 10
  end%nat.
(** how many units one step finer fit in a unit (npdatetime.py 70; 24 hours, 7 days) *)
Definition step (u : unit_) : Z :=
  match u with
  | AS => 1 | FS | PS | NS | US | MS | S_ => 1000 | M_ | H_ => 60 | D_ => 24 | W_ => 7
  end.
(** length of a unit in attoseconds *)
Definition scale (u : unit_) : Z :=
  fold_left Z.mul (map step (firstn (S (index u)) ordered_units)) 1.

Definition TWO63 := 2 ^ 63.
Definition TWO64 := 2 ^ 64.
Definition NAT := - TWO63.
(** 64 bit two's complement *)
Definition wrap (x : Z) : Z := (x + TWO63) mod TWO64 - TWO63.

Inductive kind := Datetime | Timedelta.
Record time := T { tkind : kind; tunit : unit_; tval : Z }.
(** [ValueE]: unpacking a list of the wrong length (575, 603) *)
Inductive err := OverflowE | PrecisionE | ValueE.
Inductive result A := Ok (a : A) | Err (e : err).
Arguments Ok {A}. Arguments Err {A}.

(** [cfunc(t, unit=unit)], npdatetime.py 145-146 and 171-172: [astype] of numpy.
    Finer units multiply in 64 bit arithmetic; coarser units round towards minus
    infinity; NaT stays NaT.  For timedelta64 numpy refuses conversion factors of
    2^56 and more (get_datetime_units_factor). *)
Definition cast (k : kind) (u v : unit_) (x : Z) : result Z :=
  if x =? NAT then Ok NAT
  else if (index v <=? index u)%nat then
    let f := scale u / scale v in
    match k with
    | Timedelta => if 2 ^ 56 <=? f then Err OverflowE else Ok (wrap (x * f))
    | Datetime => Ok (wrap (x * f))
    end
  else
    let f := scale v / scale u in
    match k with
    | Timedelta => if 2 ^ 56 <=? f then Err OverflowE else Ok (x / f)
    | Datetime => Ok (x / f)
    end.

(** numpy's [==]: NaT is not equal to anything *)
Definition teq (x y : Z) : bool := negb (x =? NAT) && negb (y =? NAT) && (x =? y).

(** npdatetime.py 367-418 *)
Definition adjust (allow0 : bool) (t : time) (v : unit_) : result time :=
  let '(T k u x) := t in
  if (index u =? index v)%nat then Ok t
  else if (index v <? index u)%nat then
    match cast k u v x with
    | Err e => Err e
    | Ok y => match cast k v u y with
              | Err e => Err e
              | Ok z => if teq x z then Ok (T k v y) else Err OverflowE
              end
    end
  else
    match cast k u v x with
    | Err e => Err e
    | Ok y => if negb allow0 && (y =? 0) && negb (x =? 0) then Err PrecisionE else Ok (T k v y)
    end.

(** npdatetime.py 420-465 *)
Definition round1 (allow0 : bool) (v : unit_) (t : time) : result time :=
  if (index v <=? index (tunit t))%nat then Ok t else adjust allow0 t v.

(** the loops at 519-520 and 534-535: the times converted before the first error *)
Fixpoint adjust_all (allow0 : bool) (v : unit_) (ts : list time) : list time * option err :=
  match ts with
  | [] => ([], None)
  | t :: ts' => match adjust allow0 t v with
                | Err e => ([], Some e)
                | Ok t1 => let (r, e) := adjust_all allow0 v ts' in (t1 :: r, e)
                end
  end.

(** npdatetime.py 354-365 *)
Fixpoint finest (best : unit_) (ts : list time) : unit_ :=
  match ts with
  | [] => best
  | t :: ts' => finest (if (index (tunit t) <? index best)%nat then tunit t else best) ts'
  end.
Definition most_precise_unit (ts : list time) : unit_ :=
  match ts with [] => AS | t :: ts' => finest (tunit t) ts' end.

(** npdatetime.py 513-527: coarser and coarser until everything fits.  [ret] and
    [unit] are the variables of the code; when no unit fits the loop ends with the
    part converted last, and the unit that was asked for. *)
Fixpoint coarsen (allow_rounding allow0 : bool) (ts ret : list time) (unit : unit_) (us : list unit_)
  : result (list time * unit_) :=
  match us with
  | [] => Ok (ret, unit)
  | u :: us' =>
      match adjust_all allow0 u ts with
      | (r, None) => Ok (r, u)
      | (r, Some OverflowE) =>
          if allow_rounding then coarsen allow_rounding allow0 ts r unit us' else Err OverflowE
      | (_, Some e) => Err e
      end
  end.
(** npdatetime.py 529-540: finer and finer while everything fits *)
Fixpoint refine (allow0 : bool) (r : list time) (u : unit_) (us : list unit_)
  : result (list time * unit_) :=
  match us with
  | [] => Ok (r, u)
  | v :: us' =>
      match adjust_all allow0 v r with
      | (nxt, None) => refine allow0 nxt v us'
      | (_, Some OverflowE) => Ok (r, u)
      | (_, Some e) => Err e
      end
  end.

(** npdatetime.py 467-544 *)
Definition regularize (unit : option unit_) (most_precise allow_rounding allow0 : bool) (ts : list time)
  : result (list time * unit_) :=
  let u := match unit with Some u => u | None => most_precise_unit ts end in
  match coarsen allow_rounding allow0 ts [] u (skipn (index u) ordered_units) with
  | Err e => Err e
  | Ok (r, w) => if most_precise then refine allow0 r w (rev (firstn (index w) ordered_units))
                 else Ok (r, w)
  end.

(** npdatetime.py 546-580: [t0 + tdelta] is a 64 bit addition; NaT is absorbing *)
Definition add64 (x y : Z) : Z := if (x =? NAT) || (y =? NAT) then NAT else wrap (x + y).
Definition sub64 (x y : Z) : Z := if (x =? NAT) || (y =? NAT) then NAT else wrap (x - y).
Definition time_sum (unit : option unit_) (most_precise allow_rounding allow0 : bool) (t0 td : time)
  : result time :=
  match regularize unit most_precise allow_rounding allow0 [t0; td] with
  | Ok ([a; b], w) => Ok (T Datetime w (add64 (tval a) (tval b)))
  | Ok _ => Err ValueE
  | Err e => Err e
  end.
(** npdatetime.py 582-604 *)
Definition time_diff (unit : option unit_) (most_precise : bool) (t1 t2 : time) : result time :=
  match regularize unit most_precise true true [t1; t2] with
  | Ok ([a; b], w) => Ok (T Timedelta w (sub64 (tval a) (tval b)))
  | Ok _ => Err ValueE
  | Err e => Err e
  end.
