(** Model of viscid/cotr.py: the coordinate transforms of one Cotr instance with its caches, for
    rdim = 3, over the reals.  The conversion of a time to [t0], [ut] and the IGRF coefficients
    (419-442) is not modelled: these numbers are parameters.  The memos of sun_ecliptic_longitude,
    dip_geolon_rad, dip_geolat_rad and Q_g (477-527), which depend on nothing else, are left out. *)
From Verif Require Export RotModel.
From Coq Require Export ZArith Bool.
Open Scope R_scope.

(* 354; the heliocentric systems are left out *)
Inductive sys := Gei | Geo | Gse | Gsm | Sm | Mag | Mhd.
Definition sys_eqb (a b : sys) : bool :=
  match a, b with Gei, Gei | Geo, Geo | Gse, Gse | Gsm, Gsm | Sm, Sm | Mag, Mag | Mhd, Mhd => true | _, _ => false end.
(* 356-382 *)
Definition xform_lookup (f t : sys) : option (list Z) :=
  match f, t with
  | Gei, Gei => Some [0]%Z
  | Geo, Gei => Some [-1]%Z
  | Gse, Gei => Some [-2]%Z
  | Gsm, Gei => Some [-2; -3]%Z
  | Sm, Gei => Some [-2; -3; -4]%Z
  | Mag, Gei => Some [-1; -5]%Z
  | Mhd, Gei => Some [-2; 6]%Z
  | Geo, Geo => Some [0]%Z
  | Gse, Geo => Some [1; -2]%Z
  | Gsm, Geo => Some [1; -2; -3]%Z
  | Sm, Geo => Some [1; -2; -3; -4]%Z
  | Mag, Geo => Some [-5]%Z
  | Mhd, Geo => Some [1; -2; 6]%Z
  | Gse, Gse => Some [0]%Z
  | Gsm, Gse => Some [-3]%Z
  | Sm, Gse => Some [-3; -4]%Z
  | Mag, Gse => Some [2; -1; -5]%Z
  | Mhd, Gse => Some [6]%Z
  | Gsm, Gsm => Some [0]%Z
  | Sm, Gsm => Some [-4]%Z
  | Mag, Gsm => Some [3; 2; -1; -5]%Z
  | Mhd, Gsm => Some [3; 6]%Z
  | Sm, Sm => Some [0]%Z
  | Mag, Sm => Some [4; 3; 2; -1; -5]%Z
  | Mhd, Sm => Some [4; 3; 6]%Z
  | Mag, Mag => Some [0]%Z
  | Mhd, Mag => Some [5; 1; -2; 6]%Z
  | Mhd, Mhd => Some [0]%Z
  | _, _ => None
  end.

(* the arguments and what the constructor computes from the time *)
Record params := PARAMS {
  p_t0 : R; p_ut : R; p_g10 : R; p_g11 : R; p_h11 : R;
  p_tilt : option R;       (* dip_tilt as given *)
  p_gsm : option R;        (* dip_gsm as given *)
  p_notilt : bool          (* notilt1967 and the time is within 0.0006 years of 1967 *)
}.
Definition disable_mag (p : params) : bool :=
  match p_tilt p, p_gsm p with None, None => false | _, _ => true end.

Record state := STATE {
  emats : list (Z * mat);
  xforms : list ((sys * sys) * mat);
  c_qe : option vec;
  c_gsm : option R;
  c_tilt : option R
}.
Definition dflt (o : option R) : option R := Some (match o with Some x => x | None => 0 end).
(* 444-472 *)
Definition init (p : params) : state :=
  let given := disable_mag p || p_notilt p in
  STATE (if p_notilt p then [(-1, eye); (1, eye); (-2, eye); (2, eye); (-5, eye); (5, eye)]%Z else [])
        [] None
        (if given then dflt (p_gsm p) else None)
        (if given then dflt (p_tilt p) else None).

Inductive cerr := RuntimeError | ValueError | RecursionError.
Inductive res (A : Type) := Ok (a : A) | Err (e : cerr).
Arguments Ok {A}. Arguments Err {A}.

(* 171-220 *)
Definition deg2rad (t : R) : R := t * (PI / 180).
Definition rad2deg (t : R) : R := t * (180 / PI).
Definition make_rotation (theta : R) (a : axis) : mat :=
  let s := sin (deg2rad theta) in let c := cos (deg2rad theta) in
  if Req_EM_T theta 0 then eye else
  match a with
  | AX => MAT 1 0 0 0 c s 0 (- s) c
  | AY => MAT c 0 s 0 1 0 (- s) 0 c
  | AZ => MAT c s 0 (- s) c 0 0 0 1
  end.
(* 477-488 *)
Definition sun_longitude (p : params) : R :=
  let m := 357528 / 1000 + 35999050 / 1000 * p_t0 p + 4107 / 100000 * p_ut p in
  let lam := 280460 / 1000 + 36000772 / 1000 * p_t0 p + 4107 / 100000 * p_ut p in
  lam + (1915 / 1000 - 48 / 10000 * p_t0 p) * sin (deg2rad m) + 20 / 1000 * sin (2 * deg2rad m).
(* 490-513 *)
Definition geolon (p : params) : R := arctan2 (p_h11 p) (p_g11 p) + PI.
Definition geolat (p : params) : R :=
  PI / 2 - asin ((p_g11 p * cos (geolon p) + p_h11 p * sin (geolon p)) / p_g10 p).
(* 515-527 *)
Definition q_g (p : params) : vec :=
  VEC (cos (geolat p) * cos (geolon p)) (cos (geolat p) * sin (geolon p)) (sin (geolat p)).

Definition find_e (w : Z) (st : state) : option mat := option_map snd (find (fun kv => (fst kv =? w)%Z) (emats st)).
Definition find_x (f t : sys) (st : state) : option mat :=
  option_map snd (find (fun kv => sys_eqb (fst (fst kv)) f && sys_eqb (snd (fst kv)) t) (xforms st)).
Definition add_e (w : Z) (m : mat) (st : state) : state := STATE ((w, m) :: emats st) (xforms st) (c_qe st) (c_gsm st) (c_tilt st).
Definition add_x (f t : sys) (m : mat) (st : state) : state := STATE (emats st) (((f, t), m) :: xforms st) (c_qe st) (c_gsm st) (c_tilt st).

Definition getter : Type := state -> Z -> state * res mat.
(* 672-684: the product of the elementary matrices *)
Fixpoint product (emat : getter) (st : state) (mat : mat) (l : list Z) : state * res R3.mat :=
  match l with
  | [] => (st, Ok mat)
  | w :: l => match emat st w with
              | (st, Ok e) => product emat st (mmul mat e) l
              | (st, Err e) => (st, Err e)
              end
  end.
(* 652-686 *)
Definition get_matrix (emat : getter) (st : state) (f t : sys) : state * res mat :=
  match find_x f t st with
  | Some m => (st, Ok m)
  | None =>
      match (match xform_lookup f t with
             | Some l => Some l
             | None => match xform_lookup t f with Some l => Some (map Z.opp (rev l)) | None => None end
             end) with
      | None => (st, Err ValueError)
      | Some l =>
          match product emat st eye l with
          | (st, Ok m) =>
              let st := add_x t f (transpose m) (add_x f t m st) in
              match find_x f t st with Some m => (st, Ok m) | None => (st, Err ValueError) end
          | (st, Err e) => (st, Err e)
          end
      end
  end.
(* 688-725 for one vector *)
Definition transform (emat : getter) (st : state) (f t : sys) (v : vec) : state * res vec :=
  match get_matrix emat st f t with
  | (st, Ok m) => (st, Ok (mapply m v))
  | (st, Err e) => (st, Err e)
  end.
(* 529-533 *)
Definition q_e (p : params) (emat : getter) (st : state) : state * res vec :=
  match c_qe st with
  | Some q => (st, Ok q)
  | None => match transform emat st Geo Gse (q_g p) with
            | (st, Ok q) => (STATE (emats st) (xforms st) (Some q) (c_gsm st) (c_tilt st), Ok q)
            | (st, Err e) => (st, Err e)
            end
  end.
(* 543-554 *)
Definition dip_gsm (p : params) (emat : getter) (st : state) : state * res R :=
  match c_gsm st with
  | Some x => (st, Ok x)
  | None => match q_e p emat st with
            | (st, Ok q) => let x := rad2deg (arctan2 (v1 q) (v2 q)) in
                (STATE (emats st) (xforms st) (c_qe st) (Some x) (c_tilt st), Ok x)
            | (st, Err e) => (st, Err e)
            end
  end.
(* 556-567 *)
Definition dip_tilt (p : params) (emat : getter) (st : state) : state * res R :=
  match c_tilt st with
  | Some x => (st, Ok x)
  | None => match q_e p emat st with
            | (st, Ok q) => let x := rad2deg (arctan2 (v0 q) (sqrt (v1 q * v1 q + v2 q * v2 q))) in
                (STATE (emats st) (xforms st) (c_qe st) (c_gsm st) (Some x), Ok x)
            | (st, Err e) => (st, Err e)
            end
  end.
(* 572-650; the cases 3 and 4 call themselves through dip_gsm, dip_tilt, Q_e and transform: [fuel]
   bounds the depth *)
Definition remember (w : Z) (m : mat) (st : state) : state := add_e (Z.abs w) m (add_e (- Z.abs w) (transpose m) st).
Definition recall (w : Z) (st : state) : state * res mat :=
  match find_e w st with Some m => (st, Ok m) | None => (st, Err ValueError) end.
Fixpoint get_emat (fuel : nat) (p : params) (st : state) (w : Z) : state * res mat :=
  match fuel with
  | O => (st, Err RecursionError)
  | S fuel =>
      match find_e w st with
      | Some m => (st, Ok m)
      | None =>
          let done (m : mat) (st : state) := recall w (remember w m st) in
          if (Z.abs w =? 0)%Z then done eye st
          else if (Z.abs w =? 1)%Z then
            done (make_rotation (100461 / 1000 + 36000770 / 1000 * p_t0 p + 1504107 / 100000 * p_ut p) AZ) st
          else if (Z.abs w =? 2)%Z then
            done (mmul (make_rotation (sun_longitude p) AZ) (make_rotation (23439 / 1000 - 13 / 1000 * p_t0 p) AX)) st
          else if (Z.abs w =? 3)%Z then
            match dip_gsm p (get_emat fuel p) st with
            | (st, Ok psi) => done (make_rotation (- psi) AX) st
            | (st, Err e) => (st, Err e)
            end
          else if (Z.abs w =? 4)%Z then
            match dip_tilt p (get_emat fuel p) st with
            | (st, Ok mu) => done (make_rotation (- mu) AY) st
            | (st, Err e) => (st, Err e)
            end
          else if (Z.abs w =? 5)%Z then
            if disable_mag p then (st, Err RuntimeError)
            else done (mmul (make_rotation (rad2deg (geolat p) - 90) AY) (make_rotation (rad2deg (geolon p)) AZ)) st
          else if (Z.abs w =? 6)%Z then done (MAT (-1) 0 0 0 (-1) 0 0 0 1) st
          else (st, Err ValueError)
      end
  end.
Definition depth : nat := 3.
(** ** calls *)
Inductive call := GetMatrix (f t : sys) | Transform (f t : sys) (v : vec) | DipTilt | DipGsm.
Definition step (p : params) (st : state) (c : call) : state :=
  match c with
  | GetMatrix f t => fst (get_matrix (get_emat depth p) st f t)
  | Transform f t v => fst (transform (get_emat depth p) st f t v)
  | DipTilt => fst (dip_tilt p (get_emat depth p) st)
  | DipGsm => fst (dip_gsm p (get_emat depth p) st)
  end.
Definition history (p : params) (l : list call) : state := fold_left (step p) l (init p).
(* 741-751 *)
Definition get_dipole_moment (p : params) (st : state) (t : sys) (strength : R) : state * res vec :=
  transform (get_emat depth p) st Sm t (VEC 0 0 (- strength)).
(* 883-898 for moments in GSE or MHD; the other parameters are those of the default time
   1967-01-01, for which [p_notilt] is set *)
Definition p1967 (tilt gsm : option R) (t0 ut : R) : params := PARAMS t0 ut (-30554) 0 0 tilt gsm true.
Definition dipole_moment2cotr (m : vec) (f : sys) (t0 ut : R) : res params :=
  match f with
  | Gse | Mhd =>
      let p0 := p1967 (Some 0) (Some 0) t0 ut in
      match transform (get_emat depth p0) (init p0) f Gse m with
      | (_, Ok m) =>
          let gsm := rad2deg (arctan2 (v1 m) (v2 m)) in
          let tilt := rad2deg (arctan2 (v0 m) (sqrt (v1 m * v1 m + v2 m * v2 m))) in
          Ok (p1967 (Some tilt) (Some gsm) t0 ut)
      | (_, Err e) => Err e
      end
  | _ => Err ValueError
  end.
