(** Model of [resample_lines], viscid/calculator/calc.py 376-414, with kind 'linear', for which scipy's interp1d and np.interp give the same.

    SIMPLIFICATIONS: numbers are exact, so the parameters of np.linspace are i / (n - 1); a line is the list of its rows (x, y, z), all of one length.
    The number of new points is a float (np.ceil returns one): [float_sizes] says whether np.empty takes it, which numpy does before version 1.12 and not since. *)
From Coq Require Import List ZArith QArith Qround.
Import ListNotations.
Open Scope Q_scope.

(* np.linspace(0, 1, n) *)
Definition linspace01 (n : nat) : list Q :=
  map (fun i => if (n =? 1)%nat then 0 else inject_Z (Z.of_nat i) / inject_Z (Z.of_nat n - 1)) (seq 0 n).
(* np.interp(s, xs, ys): the first segment that ends at or after s; beyond the ends the end values *)
Fixpoint interp_from (x y : Q) (xs ys : list Q) (s : Q) : Q :=
  match xs, ys with
  | x' :: xs', y' :: ys' => if Qle_bool s x' then y + (y' - y) / (x' - x) * (s - x) else interp_from x' y' xs' ys' s
  | _, _ => y
  end.
Definition interp (s : Q) (xs ys : list Q) : Q :=
  match xs, ys with x :: xs', y :: ys' => if Qle_bool s x then y else interp_from x y xs' ys' s | _, _ => 0 end.
Inductive result := Lines (l : list (list (list Q))) | ValueError | TypeError.
(* 400-412 *)
Definition new_count (factor : Q) (nold : nat) : nat := Z.to_nat (Qceiling (factor * inject_Z (Z.of_nat nold - 1)) + 1).
Definition resample_row (factor : Q) (row : list Q) : list Q :=
  map (fun s => interp s (linspace01 (length row)) row) (linspace01 (new_count factor (length row))).
(* 393-414 *)
Definition resample_lines (float_sizes : bool) (lines : list (list (list Q))) (factor : Q) : result :=
  if Qle_bool factor 0 then ValueError
  else if Qeq_bool factor 1 then Lines lines
  else match lines with
       | [] => Lines []
       | _ => if float_sizes then Lines (map (map (resample_row factor)) lines) else TypeError
       end.
