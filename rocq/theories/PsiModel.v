(** Model of the flux function and of plasma beta: viscid/calculator/plasma.py 19-110 and 112-138.

    SIMPLIFICATIONS: exact numbers (rationals for the flux function, reals for beta); each element of the array A is assigned once and read only after
    that, so the loops are recursions on the index; the axes are those of a field with the axes x, y, z, in this order.  That the result gets the
    dropped axes back (105-107) is not modelled. *)
From Coq Require Import List QArith Reals.
Import ListNotations.

(** ** 45-77: the plane; an axis with its number of points *)
Definition axes := list (nat * nat).
(* 45: slice_reduce(":") *)
Definition reduced (sh : axes) : axes := filter (fun a => negb (snd a =? 1)%nat) sh.
Fixpoint argmin (sh : axes) : option (nat * nat) :=
  match sh with
  | [] => None
  | a :: r => match argmin r with Some b => if (snd b <? snd a)%nat then Some b else Some a | None => Some a end
  end.
(* 47-73; None: ValueError *)
Definition plane (sh : axes) : option (nat * nat) :=
  let s1 := reduced sh in
  let s2 := if (2 <? length s1)%nat then filter (fun a => negb (snd a <=? 2)%nat) s1 else s1 in
  let s3 := if (length s2 =? 3)%nat then match argmin s2 with Some b => filter (fun a => negb (fst a =? fst b)%nat) s2 | None => s2 end else s2 in
  match s3 with
  | [a; b] => Some (fst a, fst b)
  | _ => None
  end.

(** ** 84-103: the coordinates y and z and the components of the field along them, at [i, j] *)
Section PSI.
Open Scope Q_scope.
Variables (y z : nat -> Q) (hy hz : nat -> nat -> Q).
Definition dy (i : nat) : Q := y (S i) - y i.
Definition dz (j : nat) : Q := z (S j) - z j.
(* 97-103 *)
Fixpoint first_row (i : nat) : Q :=
  match i with
  | O => 0
  | S p => first_row p + dy p * (1 # 2) * (hz (S p) 0%nat + hz p 0%nat)
  end.
Fixpoint psi (i j : nat) : Q :=
  match j with
  | O => first_row i
  | S p => psi i p - dz p * (1 # 2) * (hy i p + hy i (S p))
  end.
(* 89-95: from the other corner; [a] and [b] count from the end *)
Variables (ny nz : nat).
Fixpoint last_row (a : nat) : Q :=
  match a with
  | O => 0
  | S p => let i := (ny - 2 - p)%nat in last_row p - dy i * (1 # 2) * (hz i (nz - 1)%nat + hz (S i) (nz - 1)%nat)
  end.
Fixpoint psi_from_end (i b : nat) : Q :=
  match b with
  | O => last_row (ny - 1 - i)
  | S p => let j := (nz - 2 - p)%nat in psi_from_end i p + dz j * (1 # 2) * (hy i (S j) + hy i j)
  end.
Definition psi_rev (i j : nat) : Q := psi_from_end i (nz - 1 - j).
End PSI.

(** ** 112-138 *)
Definition beta (scale pp bx by_ bz : R) : R := (scale * 2 * pp / sqrt (bx ^ 2 + by_ ^ 2 + bz ^ 2))%R.
