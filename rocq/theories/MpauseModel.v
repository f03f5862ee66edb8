(** Model of viscid/calculator/mpause.py: [paraboloid] and [paraboloid_normal] (19-32), [find_mp_edges] (291-355) and the angle of [get_mp_info] (213-241).

    SIMPLIFICATIONS: one column of the block, that is one y and z; the others are done alike.  Numbers are exact; for the current they are rational.
    Masked values are [None]; NaN in a result is [None].  Not modelled: the fit, the cache files, the places of the largest pressure and electric field. *)
From Coq Require Import Reals ZArith QArith Qabs Qminmax List Bool Arith.
Import ListNotations.

(** ** the paraboloid *)
Local Open Scope R_scope.
Record parab := PB { x0 : R; y0 : R; z0 : R; ax : R; ay : R; az : R }.
(* 19-21 *)
Definition paraboloid (y z : R) (p : parab) : R := ax p * (((y - y0 p) / ay p) ^ 2 + ((z - z0 p) / az p) ^ 2) + x0 p.
(* 23-27 *)
Definition normal_raw (y z : R) (p : parab) : R * R * R :=
  let dyF := 2 * (y - y0 p) / ay p ^ 2 in
  let dzF := 2 * (z - z0 p) / az p ^ 2 in
  let dxF := (-1 / ax p) * 1 in
  (dxF, dyF, dzF).
Definition dot3 (a b : R * R * R) : R := let '(a1, a2, a3) := a in let '(b1, b2, b3) := b in a1 * b1 + a2 * b2 + a3 * b3.
Definition norm3 (a : R * R * R) : R := sqrt (dot3 a a).
(* 29-31 *)
Definition paraboloid_normal (y z : R) (p : parab) (normalize : bool) : R * R * R :=
  let n := normal_raw y z p in
  if normalize then let '(a, b, c) := n in (a / norm3 n, b / norm3 n, c / norm3 n) else n.

(** ** the edges *)
Local Open Scope Q_scope.
(* 318-321, 326-327 *)
Definition mask_col (maskval : option Q) (jy : list Q) : list (option Q) :=
  map (fun v => match maskval with Some m => if Qlt_le_dec v m then None else Some v | None => Some v end) jy.
(* 329; None: all values are masked *)
Fixpoint absmax (col : list (option Q)) : option Q :=
  match col with
  | [] => None
  | None :: r => absmax r
  | Some v :: r => match absmax r with Some m => Some (Qmax (Qabs v) m) | None => Some (Qabs v) end
  end.
(* 331-332: a masked value is not above *)
Definition above (thresh : Q) (col : list (option Q)) : list bool :=
  match absmax col with
  | None => map (fun _ => false) col
  | Some m => map (fun o => match o with Some v => if Qlt_le_dec (thresh * m) v then true else false | None => false end) col
  end.
(* np.argmax of booleans *)
Fixpoint first_true (l : list bool) : option nat :=
  match l with [] => None | b :: r => if b then Some O else option_map S (first_true r) end.
Definition argmax_bool (l : list bool) : nat := match first_true l with Some i => i | None => O end.
Record edges := ED { sheath_edge : option Q; sphere_edge : option Q; mp_width : option Q; sheath_ind : nat; sphere_ind : nat }.
(* 291-355 *)
Definition find_mp_edges (xcc jy : list Q) (sphere_thresh sheath_thresh : Q) (maskval : option Q) : edges :=
  let col := mask_col maskval jy in
  let nx := length xcc in
  let si := argmax_bool (above sphere_thresh col) in                                     (* 335 *)
  let se := if (0 <? si)%nat then Some (nth si xcc 0) else None in                        (* 337, 340 *)
  let hi := (nx - 1 - argmax_bool (rev (above sheath_thresh col)))%nat in                 (* 343 *)
  let he := if (hi <? nx - 1)%nat then Some (nth hi xcc 0) else None in                   (* 345, 348 *)
  ED he se (match he, se with Some a, Some b => Some (a - b) | _, _ => None end) hi si.

(** ** the angle between the fields on the two sides *)
(* 217-241: the two indices along x, and whether the angle is kept *)
Definition clip (i lo hi : Z) : Z := Z.max lo (Z.min i hi).
Definition shear_inds (step nx : Z) (sheath sphere : Z) : Z * Z * bool :=
  (clip (sheath + step) 0 (nx - 1), clip (sheath - step) 0 (nx - 1), (sheath + step <? nx)%Z && (0 <=? sphere - step)%Z).
Local Open Scope R_scope.
(* 232-239; None is NaN *)
Definition mp_shear (step : Z) (b : list (R * R * R)) (e : edges) : option R :=
  let '(i, j, ok) := shear_inds step (Z.of_nat (length b)) (Z.of_nat (sheath_ind e)) (Z.of_nat (sphere_ind e)) in
  let bi := nth (Z.to_nat i) b (0, 0, 0) in
  let bj := nth (Z.to_nat j) b (0, 0, 0) in
  if ok then Some (180 / PI * acos (dot3 bi bj / (norm3 bj * norm3 bi))) else None.
