(** Model of viscid/seed.py over the reals: [Line], [Spline], [Plane], [Volume], [Sphere],
    [SphericalCap], [Circle] and [SphericalPatch]; dtype conversions are not modelled.  A value that
    is nan in numpy is None here.  Seed points are a list of vectors, the columns of the 3xN array. *)
From Verif Require Export RotModel.
From Verif Require PointsModel.
From Coq Require Export Bool List ZArith.
Export ListNotations.
Open Scope R_scope.

(* np.linspace(a, b, n, endpoint) *)
Definition linspace (a b : R) (n : nat) (endpoint : bool) : list R :=
  map (fun i => a + INR i * ((b - a) / (if endpoint then (if n =? 1 then 1 else INR n - 1) else INR n))) (seq 0 n).
(* np.deg2rad *)
Definition deg2rad (t : R) : R := t * (PI / 180).

(** ** Line *)
(* 460-465, 479-480 *)
Definition line_point (p0 p1 : vec) (s : R) : vec := vadd p0 (vscale s (vsub p1 p0)).
Definition line_points (p0 p1 : vec) (n : nat) : list vec := map (line_point p0 p1) (linspace 0 1 n true).
(* 485-490: the coordinates of the field on the line *)
Definition line_axis (p0 p1 : vec) (n : nat) : list R := linspace 0 (norm (vsub p1 p0)) n true.

(** ** Spline *)
(* 507-512 *)
Definition spline_n (n : Z) (knots : nat) : Z := (if n <? 0 then - n * Z.of_nat knots else n)%Z.
(* 533 (pts_local * self.n).astype(int): truncation *)
Definition spline_index (n : nat) (s : R) : Z := Int_part (s * INR n).
(* 527-534: [curve k u] is splev of the spline of degree k (scipy, a parameter); [opt_k] is
   splprep_opts["k"], which [pop] removes *)
Definition spline_points (curve : nat -> R -> vec) (knots n : nat) (opt_k : option nat) : list vec * option nat :=
  let k := match opt_k with Some k => k | None => (knots - 1)%nat end in
  let u := linspace 0 1 (n + 1) true in
  (map (fun s => curve k (nth (Z.to_nat (spline_index n s)) u 0)) (linspace 0 1 n true), None).
(* 250-257 get_points: with cache the points are kept *)
Record spline_state := SPL { sp_k : option nat; sp_points : option (list vec) }.
Definition spline_get_points (curve : nat -> R -> vec) (knots n : nat) (cache : bool) (st : spline_state) : list vec * spline_state :=
  match sp_points st with
  | Some l => (l, st)
  | None => let (l, k) := spline_points curve knots n (sp_k st) in (l, SPL k (if cache then Some l else None))
  end.

(** ** Plane *)
(* v / np.sqrt(np.dot(v, v)): nan (0 / 0) for the zero vector *)
Definition normalize (v : vec) : option vec := if Req_EM_T (norm v) 0 then None else Some (vdiv v (norm v)).
(* np.allclose(v, [0, 0, 0]); False when v is nan *)
Definition allclose0 (v : option vec) : bool :=
  match v with None => false | Some v => isclose (v0 v) 0 && isclose (v1 v) 0 && isclose (v2 v) 0 end.
Record plane := PLANE { pl_p0 : vec; pl_L : vec; pl_M : vec; pl_N : vec; pl_l : R * R; pl_m : R * R; pl_nl : nat; pl_nm : nat }.
Inductive plane_result := RuntimeError | NanPlane | IsPlane (p : plane).
Definition lift2 {A B C} (f : A -> B -> C) (a : option A) (b : option B) : option C :=
  match a, b with Some a, Some b => Some (f a b) | _, _ => None end.
(* a length or a pair of limits: 618-621 *)
Inductive extent := Length (len : R) | Limits (lo hi : R).
Definition limits (e : extent) : R * R := match e with Length len => (- (1 / 2) * len, 1 / 2 * len) | Limits lo hi => (lo, hi) end.
(* 589-631 *)
Definition make_plane (p0 pN pL : vec) (len_l len_m : extent) (nl nm : nat) (vectors : bool) : plane_result :=
  let n := if vectors then pN else vsub pN p0 in
  let l := if vectors then pL else vsub pL p0 in
  let n := normalize n in
  let l := match n with Some n => normalize (vsub l (vscale (vdot l n) n)) | None => None end in
  let m := lift2 cross n l in
  if allclose0 m then RuntimeError
  else match n, l, m with
       | Some n, Some l, Some m => IsPlane (PLANE p0 l m n (limits len_l) (limits len_m) nl nm)
       | _, _, _ => NanPlane
       end.
(* 752 *)
Definition plane_rotation (p : plane) : mat :=
  transpose (MAT (v0 (pl_L p)) (v1 (pl_L p)) (v2 (pl_L p)) (v0 (pl_M p)) (v1 (pl_M p)) (v2 (pl_M p)) (v0 (pl_N p)) (v1 (pl_N p)) (v2 (pl_N p))).
(* 645-653 *)
Definition plane_to_3d (p : plane) (x : vec) : vec := vadd (pl_p0 p) (mapply (plane_rotation p) x).
Definition plane_to_local (p : plane) (x : vec) : vec := mapply (transpose (plane_rotation p)) (vsub x (pl_p0 p)).
(* 655-672 *)
Definition plane_axes (p : plane) : list R * list R :=
  (linspace (fst (pl_l p)) (snd (pl_l p)) (pl_nl p) true, linspace (fst (pl_m p)) (snd (pl_m p)) (pl_nm p) true).
Definition plane_local (p : plane) : list vec :=
  let (l, m) := plane_axes p in
  map (fun lm => VEC (fst lm) (snd lm) 0) (combine (PointsModel.np_repeat l (pl_nm p)) (PointsModel.tile m (pl_nl p))).
Definition plane_points (p : plane) : list vec := map (plane_to_3d p) (plane_local p).

(** ** Volume *)
(* 845-849 *)
Definition volume_axes (xl xh : vec) (nx ny nz : nat) : list (list R) :=
  [linspace (v0 xl) (v0 xh) nx true; linspace (v1 xl) (v1 xh) ny true; linspace (v2 xl) (v2 xh) nz true].
(* 852-854; the order of get_points is the same: C34 *)
Definition volume_points (xl xh : vec) (nx ny nz : nat) : list (list R) := PointsModel.iter_points (volume_axes xl xh nx ny nz).

(** ** Sphere *)
Inductive ends2 := AutoEnds | Ends (lo hi : bool).
Inductive ends1 := AutoEnd | End (b : bool).
Record sphere := SPHERE {
  s_p0 : vec; s_r : R; s_pole : vec; s_ntheta : nat; s_nphi : nat;
  s_theta : R * R; s_phi : R * R;               (* limits, radians *)
  s_tend : ends2; s_pend : ends1; s_theta_phi : bool; s_roll : R;
  s_cap : bool                                   (* a SphericalCap *)
}.
(* 901-943; a zero pole (nan) gives None; [gse] is whether the crd_system is 'gse' *)
Definition make_sphere (p0 : vec) (r : R) (pole : vec) (is_vector : bool) (ntheta nphi : nat) (thetalim philim : R * R)
    (tend : ends2) (pend : ends1) (theta_phi : bool) (roll : R) (gse cap : bool) : option sphere :=
  let pole := if is_vector then pole else vsub pole p0 in
  let r := if Req_EM_T r 0 then norm pole else r in
  match normalize pole with
  | None => None
  | Some pole => Some (SPHERE p0 r pole ntheta nphi (deg2rad (fst thetalim), deg2rad (snd thetalim)) (deg2rad (fst philim), deg2rad (snd philim))
                              tend pend theta_phi (roll + (if gse then -180 else 0)) cap)
  end.
(* 1189-1223: theta_endpoint of SphericalCap.__init__ is not passed on *)
Definition make_cap (p0 : vec) (r : R) (pole : vec) (is_vector : bool) (ntheta nphi : nat) (angle0 angle : R) (philim : R * R) (pend : ends1) (theta_phi : bool) (roll : R) (gse : bool) : option sphere :=
  make_sphere p0 r pole is_vector ntheta nphi (angle0, angle) philim AutoEnds pend theta_phi roll gse true.
(* 1225-1251 *)
Definition make_circle (p0 : vec) (r : R) (pole : vec) (is_vector : bool) (n : nat) (philim : R * R) (pend : ends1) (theta_phi : bool) (roll : R) (gse : bool) : option sphere :=
  make_cap p0 r pole is_vector 1 n 90 90 philim pend theta_phi roll gse.
(* 952-953 *)
Definition spans_phi (s : sphere) : bool := isclose (snd (s_phi s) - fst (s_phi s)) (2 * PI).
(* 1007-1008 *)
Definition at_pole (t : R) : bool := isclose t 0 || isclose t PI.
(* 982-1005, 1214-1219 *)
Definition theta_endpoints (s : sphere) : bool * bool :=
  match s_tend s with
  | AutoEnds => if s_cap s then (true, false) else (negb (at_pole (fst (s_theta s))), negb (at_pole (snd (s_theta s))))
  | Ends lo hi => (lo, hi)
  end.
Definition phi_endpoint (s : sphere) : bool := match s_pend s with AutoEnd => negb (spans_phi s) | End b => b end.
(* 1071-1094 *)
Definition theta_axis (s : sphere) : list R :=
  let '(t0, t1) := s_theta s in let n := s_ntheta s in
  match theta_endpoints s with
  | (true, true) => linspace t0 t1 n true
  | (true, false) => linspace t0 t1 n false
  | (false, true) => rev (linspace t1 t0 n false)
  | (false, false) => let t := linspace t0 t1 (n + 1) true in map (fun ab => 1 / 2 * (fst ab + snd ab)) (combine (tl t) (removelast t))
  end.
Definition phi_axis (s : sphere) : list R := linspace (fst (s_phi s)) (snd (s_phi s)) (s_nphi s) (phi_endpoint s).
(* 1055-1069: (theta, phi) of each point *)
Definition sphere_angles (s : sphere) : list (R * R) :=
  if s_theta_phi s
  then combine (PointsModel.np_repeat (theta_axis s) (s_nphi s)) (PointsModel.tile (phi_axis s) (s_ntheta s))
  else map (fun pt => (snd pt, fst pt)) (combine (PointsModel.np_repeat (phi_axis s) (s_ntheta s)) (PointsModel.tile (theta_axis s) (s_nphi s))).
(* 1101-1103 *)
Definition sphere_rotation (s : sphere) : mat := a2b_rot (VEC 0 0 1) (s_pole s) (s_roll s) Deg.
(* 1037-1050 *)
Definition on_sphere (r t p : R) : vec := VEC (r * sin t * cos p) (r * sin t * sin p) (r * cos t + 0 * p).
Definition sphere_to_3d (s : sphere) (tp : R * R) : vec := vadd (s_p0 s) (mapply (sphere_rotation s) (on_sphere (s_r s) (fst tp) (snd tp))).
Definition sphere_points (s : sphere) : list vec := map (sphere_to_3d s) (sphere_angles s).

(** ** meshes of a sphere *)
(* 1010-1015 *)
Definition skipped_poles (s : sphere) : bool * bool :=
  (at_pole (fst (s_theta s)) && negb (fst (theta_endpoints s)), at_pole (snd (s_theta s)) && negb (snd (theta_endpoints s))).
(* 1122-1163; rows are the first axis of the mesh; fill_holes=False leaves the points *)
Definition uv_shape (s : sphere) : nat * nat := if s_theta_phi s then (s_ntheta s, s_nphi s) else (s_nphi s, s_ntheta s).
Definition sphere_mesh (s : sphere) (fill : bool) : list (list vec) :=
  let pts := PointsModel.rows (fst (uv_shape s)) (snd (uv_shape s)) (sphere_points s) in
  if negb fill then pts else
  let north := vadd (s_p0 s) (vscale 1 (vscale (s_r s) (s_pole s))) in
  let south := vadd (s_p0 s) (vscale (-1) (vscale (s_r s) (s_pole s))) in
  let pts := if fst (skipped_poles s)
             then (if s_theta_phi s then repeat north (s_nphi s) :: pts else map (fun row => north :: row) pts) else pts in
  let pts := if snd (skipped_poles s)
             then (if s_theta_phi s then pts ++ [repeat south (s_nphi s)] else map (fun row => row ++ [south]) pts) else pts in
  let pts := if spans_phi s && negb (phi_endpoint s)
             then (if s_theta_phi s then map (fun row => row ++ firstn 1 row) pts else pts ++ firstn 1 pts) else pts in
  if s_theta_phi s then pts else rev pts.
(* np.mean *)
Definition mean (l : list R) : R := fold_right Rplus 0 l / INR (length l).
(* 1165-1201 *)
Definition sphere_arr2mesh (s : sphere) (fill : bool) (arr : list R) : list (list R) :=
  let a := PointsModel.rows (fst (uv_shape s)) (snd (uv_shape s)) arr in
  if negb fill then a else
  let a := if fst (skipped_poles s)
           then (if s_theta_phi s then repeat (mean (hd [] a)) (length (hd [] a)) :: a
                 else let m := mean (map (hd 0) a) in map (fun row => m :: row) a) else a in
  let a := if snd (skipped_poles s)
           then (if s_theta_phi s then a ++ [repeat (mean (last a [])) (length (hd [] a))]
                 else let m := mean (map (fun row => last row 0) a) in map (fun row => row ++ [m]) a) else a in
  let a := if spans_phi s && negb (phi_endpoint s)
           then (if s_theta_phi s then map (fun row => row ++ firstn 1 row) a else a ++ firstn 1 a) else a in
  if s_theta_phi s then a else rev a.

(** ** SphericalPatch *)
Record patch := PATCH { pt_p0 : vec; pt_p1 : vec; pt_a : R; pt_b : R; pt_na : nat; pt_nb : nat; pt_roll : R; pt_r : R }.
Inductive patch_result := ValueError | IsPatch (p : patch).
(* 1262-1293; p1 is not zero *)
Definition make_patch (p0 p1 : vec) (max_alpha max_beta : R) (na nb : nat) (roll r : R) (is_vector : bool) : patch_result :=
  let a := PI / 180 * max_alpha in let b := PI / 180 * max_beta in
  let p1 := if is_vector then p1 else vsub p1 p0 in
  let '(p1, r) := if Req_EM_T r 0 then (p1, norm p1) else (vscale (r / norm p1) p1, r) in
  if Rlt_dec 1 (sin a * sin a + sin b * sin b) then ValueError
  else IsPatch (PATCH p0 p1 a b na nb roll r).
(* 1307-1314; the square root of a negative number is nan *)
Definition patch_to_3d (p : patch) (ab : R * R) : option vec :=
  let x := pt_r p * sin (fst ab) in let y := pt_r p * sin (snd ab) in
  let d := pt_r p * pt_r p - x * x - y * y in
  if Rlt_dec d 0 then None
  else Some (vadd (pt_p0 p) (mapply (a2b_rot (VEC 0 0 1) (pt_p1 p) (pt_roll p) Deg) (VEC x y (sqrt d)))).
(* 1319-1331 *)
Definition patch_points (p : patch) : list (option vec) :=
  map (patch_to_3d p)
      (combine (PointsModel.np_repeat (linspace (-1 * pt_a p) (1 * pt_a p) (pt_na p) true) (pt_nb p))
               (PointsModel.tile (linspace (-1 * pt_b p) (1 * pt_b p) (pt_nb p) true) (pt_na p))).
