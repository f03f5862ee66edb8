(** Model of viscid/dipole.py: fill_dipole, calc_dip, xyz2lsrlp and dipole_map.  Numbers are reals:
    rounding is not modelled.  The matrices between the systems are those of CotrModel. *)
From Verif Require Export RotModel MapPtsModel.
Open Scope R_scope.

Definition comp (i : nat) (x : vec) : R := match i with O => v0 x | S O => v1 x | _ => v2 x end.

(* 119-120, 186-187 *)
Definition rescale (strength : option R) (m : vec) : vec :=
  match strength with Some s => vscale (s / norm m) m | None => m end.
(* 140-144: component i at the place x where it is stored; rsq**1.5 is rsq * sqrt(rsq) *)
Definition dip_at (m : vec) (i : nat) (x : vec) : R :=
  let rsq := v0 x * v0 x + v1 x * v1 x + v2 x * v2 x in
  let mdotr := v0 m * v0 x + v1 m * v1 x + v2 m * v2 x in
  (3 * comp i x * mdotr / rsq - comp i m) / (rsq * sqrt rsq).
(* 87-149 without mask: crds i k is the place of component i at the index k; the values of B are not used *)
Definition fill_dipole {K} (crds : nat -> K -> vec) (m : vec) (strength : option R) : nat -> K -> R :=
  fun i k => dip_at (rescale strength m) i (crds i k).
(* 168-173: a point, or N x 3 points *)
Inductive pts_arg := One (p : vec) | Many (l : list vec).
(* 196-199: (N, 3) arrays times (N,) arrays; numpy pairs the last axes, so entry (n, c) meets element c,
   or the only element if N is 1, and other lengths than 1 and 3 are a ValueError *)
Definition calc_rows (m : vec) (pts : list vec) : res (list vec) :=
  let n := length pts in
  let rsq := map (fun x => v0 x * v0 x + v1 x * v1 x + v2 x * v2 x) pts in
  let mdotr := map (fun x => v0 m * v0 x + v1 m * v1 x + v2 m * v2 x) pts in
  if (Nat.eqb n 1 || Nat.eqb n 3)%bool then
    let at_ (l : list R) c := nth (if Nat.eqb n 1 then O else c) l 0 in
    let entry x c := (3 * comp c x * at_ mdotr c / at_ rsq c - comp c m) / (at_ rsq c * sqrt (at_ rsq c)) in
    Ok (map (fun x => VEC (entry x 0%nat) (entry x 1%nat) (entry x 2%nat)) pts)
  else ValueError.
(* 148-207 for a moment given as a vector; d is the dtype, which m is converted to (184) *)
Definition calc_dip (d : dtype) (arg : pts_arg) (m : vec) (strength : option R) : res (list vec) :=
  let m := VEC (put d (v0 m)) (put d (v1 m)) (put d (v2 m)) in
  calc_rows (rescale strength m) (match arg with One p => [p] | Many l => l end).

(* 268-298 for one point that is not the origin (None: nan); mat is the matrix from crd_system to SM.  The
   L-shell is infinite (None) on the axis *)
Definition xyz2lsrlp (mat : mat) (p : vec) : option (option R * R * R * R) :=
  match cart2sph Float false (mapply mat p) with
  | Ok (r, Some t, f) =>
      let lam := 1 / 2 * PI - t in
      let l := if Req_EM_T (cos lam) 0 then None else Some (r / (cos lam * cos lam)) in
      Some (l, r, lam, f)
  | _ => None
  end.
(* np.arccos(np.sqrt(x)); None is nan *)
Definition acos_sqrt (x : R) : option R :=
  if Rle_dec 0 x then if Rle_dec (sqrt x) 1 then Some (acos (sqrt x)) else None else None.
(* 324-341: r, theta, phi in SM; a finite number over an infinite one is 0 *)
Definition map_rtp (mat : mat) (r : R) (p : vec) : option (R * R * R) :=
  match xyz2lsrlp mat p with
  | Some (l, _, lam, f) =>
      match acos_sqrt (match l with Some l => r / l | None => 0 end) with
      | Some a => Some (r, 1 / 2 * PI - sign lam * a, f)
      | None => None
      end
  | None => None
  end.
(* 348: back is the matrix from SM to crd_system *)
Definition dipole_map (mat back : R3.mat) (r : R) (p : vec) : option vec :=
  match map_rtp mat r p with
  | Some s => match sph2cart Float false s with Ok x => Some (mapply back x) | _ => None end
  | None => None
  end.
(* 343-347: as_spherical *)
Definition dipole_map_spherical (mat : mat) (r : R) (p : vec) : option (R * R * R) :=
  match map_rtp mat r p with
  | Some (r, t, f) =>
      let t := t * (180 / PI) in
      let f := f * (180 / PI) in
      Some (r, t, f - 360 * IZR (Int_part (f / 360)))
  | None => None
  end.
