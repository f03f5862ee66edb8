(** Model of the point conversions of viscid/mapfield.py.  Numbers are reals: rounding is not
    modelled.  One column of the (3, N) and (2, N) arrays is modelled; the functions work on each
    column alone (reshape and [was_single_point] only change the shape). *)
From Verif Require Export R3.
From Coq Require Export List.
Export ListNotations.
Open Scope R_scope.

Inductive dtype := Float | Int.
(* assignment of a float to an element of an integer array: towards zero *)
Definition trunc (x : R) : R := if Rle_dec 0 x then IZR (Int_part x) else - IZR (Int_part (- x)).
Definition put (d : dtype) (x : R) : R := match d with Float => x | Int => trunc x end.
Inductive res (A : Type) := Ok (a : A) | TypeError | ValueError | IndexError.
Arguments Ok {A} a.
Arguments TypeError {A}.
Arguments ValueError {A}.
Arguments IndexError {A}.
Inductive unit_t := Deg | Rad.

(* 383-404: r, theta (None is nan), phi; [np.zeros_like(arr)] has the dtype of arr.  With deg the
   copy of the argument is scaled (400), not the result; an integer array cannot be scaled in place *)
Definition cart2sph (d : dtype) (deg : bool) (p : vec) : res (R * option R * R) :=
  let r := put d (sqrt (v0 p * v0 p + v1 p * v1 p + v2 p * v2 p)) in
  let theta := if Req_EM_T r 0 then None else Some (put d (acos (v2 p / r))) in
  let phi := put d (arctan2 (v1 p) (v0 p)) in
  match deg, d with
  | true, Int => TypeError
  | _, _ => Ok (r, theta, phi)
  end.
(* 406-427 *)
Definition sph2cart (d : dtype) (deg : bool) (s : R * R * R) : res vec :=
  let '(r, t, p) := s in
  let col t p := VEC (put d (r * sin t * cos p)) (put d (r * sin t * sin p)) (put d (r * cos t)) in
  match deg, d with
  | true, Int => TypeError
  | true, Float => Ok (col (t * (PI / 180)) (p * (PI / 180)))
  | false, _ => Ok (col t p)
  end.
(* 440-441, 463-464 *)
Definition quarter_circ (deg : bool) : R := if deg then 90 else PI / 2.
Definition half_circ (deg : bool) : R := if deg then 180 else PI.
(* 429-450; dr is the type of r.  np.concatenate gives integers only for two integer arrays.  In
   place addition of the float pi to an integer array is a TypeError *)
Definition latlon2cart (dr d : dtype) (r : R) (deg : bool) (q : R * R) : res vec :=
  let d' := match dr, d with Int, Int => Int | _, _ => Float end in
  match d', deg with
  | Int, false => TypeError
  | _, _ => sph2cart d' deg (r, put d' (quarter_circ deg - fst q), snd q + half_circ deg)
  end.
(* 452-472 *)
Definition cart2latlon (d : dtype) (deg : bool) (p : vec) : res (option R * R) :=
  match cart2sph d deg p with
  | Ok (_, t, f) =>
      match d, deg with
      | Int, false => TypeError
      | _, _ => Ok (option_map (fun t => put d (quarter_circ deg - t)) t, f - half_circ deg)
      end
  | TypeError => TypeError
  | ValueError => ValueError
  | IndexError => IndexError
  end.

(* 21, 33-34 *)
Definition p90 (u : unit_t) : R := match u with Rad => PI / 2 | Deg => 90 end.
Definition p180 (u : unit_t) : R := match u with Rad => PI | Deg => 180 end.
Definition ltb (a b : R) : bool := if Rlt_dec a b then true else false.
(* 19-25 *)
Definition theta2lat (u : unit_t) (theta : list R) : res (list R) :=
  let lat := map (fun t => p90 u - t) theta in
  if (existsb (fun l => ltb l (- p90 u)) lat || existsb (fun l => ltb (p90 u) l) lat)%bool then ValueError else Ok lat.
(* 27-29, 40-42: phi2lon and lon2phi *)
Definition phi2lon (phi : R) : R := phi.
(* 31-38 *)
Definition lat2theta (u : unit_t) (lat : list R) : res (list R) :=
  let theta := map (fun l => p90 u - l) lat in
  if (existsb (fun t => ltb t 0) theta || existsb (fun t => ltb (p180 u) t) theta)%bool then ValueError else Ok theta.

Inductive axis := Phi | Theta | Lat | Lon | Other.
Definition eq_axis (a b : axis) : bool :=
  match a, b with Phi, Phi | Theta, Theta | Lat, Lat | Lon, Lon | Other, Other => true | _, _ => false end.
(* 345-348 *)
Definition to_rad (u : unit_t) (row : list R) : list R := match u with Deg => map (fun x => PI / 180 * x) row | Rad => row end.
(* 354-359: one row *)
Definition conv_row (d : dtype) (u : unit_t) (ax : axis) (row : list R) : res (list R * axis) :=
  match ax with
  | Phi => Ok (map (put d) (to_rad u row), Lon)
  | Theta => match theta2lat Rad (to_rad u row) with Ok l => Ok (map (put d) l, Lat) | TypeError => TypeError | ValueError => ValueError | IndexError => IndexError end
  | _ => Ok (map (put d) (to_rad u row), ax)
  end.
(* 354-359: all rows; rows without a name are left alone *)
Fixpoint conv_rows (d : dtype) (u : unit_t) (axes : list axis) (pts : list (list R)) : res (list (list R * axis)) :=
  match axes with
  | [] => Ok []
  | ax :: axes =>
      match pts with
      | [] => IndexError
      | row :: pts =>
          match conv_row d u ax row with
          | Ok c => match conv_rows d u axes pts with Ok l => Ok (c :: l) | e => e end
          | TypeError => TypeError | ValueError => ValueError | IndexError => IndexError
          end
      end
  end.
(* 363: pts_axes.index(ax) *)
Definition row_of (ax : axis) (l : list (list R * axis)) : option (list R) := option_map fst (find (fun c => eq_axis (snd c) ax) l).
Inductive hemisphere := North | South | NoHemisphere.
(* 370: any name but north is taken as south *)
Definition polar_scale (h : hemisphere) : R := match h with North => -1 | _ => 1 end.
(* 304-374; u = None: another unit *)
Definition pts2polar (d : dtype) (pts : list (list R)) (axes : list axis) (u : option unit_t) (h : hemisphere) : res (list R * list R) :=
  match u with
  | None => ValueError
  | Some u =>
      match conv_rows d u axes pts with
      | Ok l => match row_of Lon l, row_of Lat l with
                | Some lon, Some lat => Ok (lon, map (fun x => put d (polar_scale h * x + PI / 2)) lat)
                | _, _ => ValueError
                end
      | TypeError => TypeError | ValueError => ValueError | IndexError => IndexError
      end
  end.
