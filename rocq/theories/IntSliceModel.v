(** Model of slices that interpolate: viscid/field.py [interpolated_slice] 1345-1351 with viscid/coordinate.py [slice_interp] 894-920 and the part of [make_slice_keep] 808-846 that puts back
    an axis taken at one value.  The kernel of the interpolation is the one of InterpModel, the index nearest to a value the one of SelModel.

    SIMPLIFICATIONS: fields have three axes; one axis is selected by one value and the others are kept whole; no axis is reflected; rationals instead of floats. *)
From Verif Require Import SelModel StreamModel InterpModel.
From Coq Require Import List Arith QArith Bool.
Import ListNotations.

(** What is cached of a field (coordinate.py 461-505): the nodes and the centres of the cells, two arrays per axis; its values; whether these are at the cells (field.py 1346) and
    whether the type of the coordinates is uniform. *)
Record field := Fld { nodes : nat -> list Q; cells : nat -> list Q; values : nat -> nat -> nat -> Q; at_cells : bool; even : bool }.
Definition places (f : field) (d : nat) : list Q := if at_cells f then cells f d else nodes f d.
(* cyfield.pyx 21-114: the field as the kernels see it, 30: get_crds_vector *)
Definition prep (f : field) : cfield :=
  mkf (fun d => length (places f d)) (fun _ d i => nth i (places f d) 0%Q) (even f) (fun i j k _ => values f i j k).
(* a[i] = v *)
Fixpoint put (i : nat) (v : Q) (l : list Q) {struct l} : list Q :=
  match l, i with [], _ => [] | _ :: r, O => v :: r | x :: r, S i' => x :: put i' v r end.
(* coordinate.py 823-842: the axis is put back as a part of the cached array, without a copy; 912-915: the value is written into this part *)
Definition write (f : field) (d : nat) (v : Q) : field :=
  let i := nearest_index (places f d) v in
  let l := if at_cells f then put (S i) v (put i v (nodes f d)) else put i v (nodes f d) in
  Fld (fun e => if (e =? d)%nat then l else nodes f e) (cells f) (values f) (at_cells f) (even f).
(* field.py 1347: the points: the value, and the places of the other axes *)
Definition seed (f : field) (d : nat) (v : Q) (i j k : nat) : pt :=
  let c e n := if (e =? d)%nat then v else nth n (places f e) 0%Q in mkpt (c 0 i)%nat (c 1 j)%nat (c 2 k)%nat.
(* field.py 1345-1351: the value at one of the points, and the field afterwards; [h] are the indices at which the search begins *)
Definition interpolated_slice (f : field) (d : nat) (v : Q) (i j k : nat) (h : cache) : option Q * field :=
  let f' := write f d v in
  (match interp_trilin1 (prep f') 0 (seed f d v i j k) h with Some (q, _) => Some q | None => None end, f').
