(** Model of great_circle in viscid/mapfield.py, on top of the models of cart2sph, sph2cart and
    a2b_rot.  Numbers are reals: rounding is not modelled. *)
From Verif Require Export RotModel.
From Verif Require Export MapPtsModel.
Open Scope R_scope.

(* np.linspace(a, b, n) *)
Definition linspace (a b : R) (n : nat) : list R := map (fun i => a + INR i * ((b - a) / INR (n - 1))) (seq 0 n).
(* 490-491: the radius of cart2sph *)
Definition radius (d : dtype) (q : vec) : R := match cart2sph d false q with Ok (r, _, _) => r | _ => 0 end.
(* 499-506 *)
Definition pole_of (q1 q2 : vec) : vec :=
  let pole := cross q1 q2 in
  if isclose (norm pole) 0 then
    let pole := VEC 0 (-1) 0 in
    if isclose (norm (cross pole q1)) 0 then VEC 0 0 (-1) else pole
  else pole.
(* 520-523: the float points on the equator of sphere B *)
Definition equator (rp : R * R) : vec := match sph2cart Float false (fst rp, PI / 2 * 1, snd rp) with Ok v => v | _ => VEC 0 0 0 end.
(* 474-527 without the messages; d1 and d2 are the types of p1 - origin and p2 - origin *)
Definition great_circle (d1 d2 : dtype) (p1 p2 origin : vec) (n : nat) : list vec :=
  let q1 := vsub p1 origin in
  let q2 := vsub p2 origin in
  let r1 := radius d1 q1 in
  let r2 := radius d2 q2 in
  let mat := a2b_rot_x (VEC 0 0 1) (pole_of q1 q2) q1 RotModel.Rad in
  let dphi := arctan2 (norm (cross q1 q2)) (vdot q1 q2) in
  map (fun rp => vadd (mapply mat (equator rp)) origin) (combine (linspace r1 r2 n) (linspace 0 dphi n)).
