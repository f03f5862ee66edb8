(** Model of viscid/rotation.py for single angles, matrices, quaternions and vectors; stacks act
    element by element and are not modelled.  Angles are in radians ([convert_angle] (176-202)
    between degrees and radians: [rad]).  Changes made in place to the arguments (a and b in
    [a2b_rot], q in [quat2rot], R in [rot2angle]) are not modelled. *)
From Verif Require Export R3.
From Coq Require Export List.
Export ListNotations.
Open Scope R_scope.

(* 176-202 *)
Inductive angle_unit := Rad | Deg.
Definition rad (u : angle_unit) (t : R) : R := match u with Rad => t | Deg => t * (PI / 180) end.
Definition unrad (u : angle_unit) (t : R) : R := match u with Rad => t | Deg => t * (180 / PI) end.

Inductive axis := AX | AY | AZ.
(* 230-288 *)
Definition e_rot (theta : R) (a : axis) (u : angle_unit) : mat :=
  let s := sin (rad u theta) in let c := cos (rad u theta) in
  match a with
  | AX => MAT 1 0 0 0 c (- s) 0 s c
  | AY => MAT c 0 s 0 1 0 (- s) 0 c
  | AZ => MAT c (- s) 0 s c 0 0 0 1
  end.
(* 290-309 *)
Definition e_dcm (theta : R) (a : axis) (u : angle_unit) : mat := e_rot (- theta) a u.

Definition triple (A : Type) : Type := (A * A * A)%type.
Definition rev3 {A} (t : triple A) : triple A := let '(a, b, c) := t in (c, b, a).
(* 311-362 *)
Definition angle2rot (angles : triple R) (axes : triple axis) (u : angle_unit) : mat :=
  let '(t0, t1, t2) := angles in let '(a0, a1, a2) := axes in
  mmul (e_rot (rad u t2) a2 Rad) (mmul (e_rot (rad u t1) a1 Rad) (e_rot (rad u t0) a0 Rad)).
(* 364-398 *)
Definition eul2rot (angles : triple R) (axes : triple axis) (u : angle_unit) : mat := angle2rot (rev3 angles) (rev3 axes) u.
(* 400-427 *)
Definition angle2dcm (angles : triple R) (axes : triple axis) (u : angle_unit) : mat :=
  let '(t0, t1, t2) := angles in angle2rot (-1 * t0, -1 * t1, -1 * t2) axes u.
(* 429-462 *)
Definition eul2dcm (angles : triple R) (axes : triple axis) (u : angle_unit) : mat := angle2dcm (rev3 angles) (rev3 axes) u.

Definition clip (x : R) : R := Rmin 1 (Rmax (-1) x).
(* 464-598; None is the ValueError for other orders *)
Definition tait (s1 c0c1 s0c1 s2c1 c2c1 s0p2 c0p2 : R) : triple R :=
  let c1 := clip (sqrt (c0c1 * c0c1 + s0c1 * s0c1)) in
  let s1 := clip s1 in let c0c1 := clip c0c1 in let s0c1 := clip s0c1 in
  let s2c1 := clip s2c1 in let c2c1 := clip c2c1 in let s0p2 := clip s0p2 in let c0p2 := clip c0p2 in
  let sing := if Rlt_dec (Rabs c1) (1 / 10 ^ 10) then true else false in
  (if sing then 0 else arctan2 (s0c1 / c1) (c0c1 / c1),
   arctan2 s1 c1,
   if sing then arctan2 s0p2 c0p2 else arctan2 (s2c1 / c1) (c2c1 / c1)).
Definition proper (c1 s0s1 c0s1 s1s2 s1c2 s0p2 c0p2 : R) : triple R :=
  let s1 := clip (sqrt (s0s1 * s0s1 + c0s1 * c0s1)) in
  let c1 := clip c1 in let s0s1 := clip s0s1 in let c0s1 := clip c0s1 in
  let s1s2 := clip s1s2 in let s1c2 := clip s1c2 in let s0p2 := clip s0p2 in let c0p2 := clip c0p2 in
  let sing := if Rlt_dec (Rabs s1) (1 / 10 ^ 10) then true else false in
  (if sing then 0 else arctan2 s0s1 c0s1,
   arctan2 s1 c1,
   if sing then arctan2 s0p2 c0p2 else arctan2 s1s2 s1c2).
Definition rot2angle_rad (r : mat) (axes : triple axis) : option (triple R) :=
  match axes with
  | (AZ, AY, AX) => Some (tait (m02 r) (m00 r) (- m01 r) (- m12 r) (m22 r) (m21 r) (m11 r))
  | (AY, AX, AZ) => Some (tait (m21 r) (m22 r) (- m20 r) (- m01 r) (m11 r) (m10 r) (m00 r))
  | (AX, AZ, AY) => Some (tait (m10 r) (m11 r) (- m12 r) (- m20 r) (m00 r) (m02 r) (m22 r))
  | (AX, AY, AZ) => Some (tait (- m20 r) (m22 r) (m21 r) (m10 r) (m00 r) (- m01 r) (m11 r))
  | (AY, AZ, AX) => Some (tait (- m01 r) (m00 r) (m02 r) (m21 r) (m11 r) (- m12 r) (m22 r))
  | (AZ, AX, AY) => Some (tait (- m12 r) (m11 r) (m10 r) (m02 r) (m22 r) (- m20 r) (m00 r))
  | (AZ, AY, AZ) => Some (proper (m22 r) (m21 r) (- m20 r) (m12 r) (m02 r) (- m01 r) (m11 r))
  | (AZ, AX, AZ) => Some (proper (m22 r) (m20 r) (m21 r) (m02 r) (- m12 r) (m10 r) (m00 r))
  | (AY, AZ, AY) => Some (proper (m11 r) (m12 r) (m10 r) (m21 r) (- m01 r) (m02 r) (m22 r))
  | (AY, AX, AY) => Some (proper (m11 r) (m10 r) (- m12 r) (m01 r) (m21 r) (- m20 r) (m00 r))
  | (AX, AZ, AX) => Some (proper (m00 r) (m02 r) (- m01 r) (m20 r) (m10 r) (- m12 r) (m22 r))
  | (AX, AY, AX) => Some (proper (m00 r) (m01 r) (m02 r) (m10 r) (- m20 r) (m21 r) (m11 r))
  | _ => None
  end.
Definition map3 {A B} (f : A -> B) (t : triple A) : triple B := let '(a, b, c) := t in (f a, f b, f c).
Definition rot2angle (r : mat) (axes : triple axis) (u : angle_unit) : option (triple R) :=
  option_map (map3 (unrad u)) (rot2angle_rad r axes).
(* 600-621 *)
Definition rot2eul (r : mat) (axes : triple axis) (u : angle_unit) : option (triple R) := option_map rev3 (rot2angle r (rev3 axes) u).
(* 623-656 *)
Definition dcm2angle (r : mat) (axes : triple axis) (u : angle_unit) : option (triple R) := option_map rev3 (rot2angle (transpose r) (rev3 axes) u).
(* 658-679 *)
Definition dcm2eul (r : mat) (axes : triple axis) (u : angle_unit) : option (triple R) := option_map rev3 (dcm2angle r (rev3 axes) u).

(** ** quaternions *)
Record quat := QUAT { qw : R; qx : R; qy : R; qz : R }.
Definition qnorm (q : quat) : R := sqrt (qw q * qw q + qx q * qx q + qy q * qy q + qz q * qz q).
Definition qdiv (q : quat) (c : R) : quat := QUAT (qw q / c) (qx q / c) (qy q / c) (qz q / c).
(* np.isclose(a, b): |a - b| <= 1e-8 + 1e-5 |b| *)
Definition isclose (a b : R) : bool := if Rle_dec (Rabs (a - b)) (1 / 10 ^ 8 + 1 / 10 ^ 5 * Rabs b) then true else false.
(* 784-799 *)
Definition rot_of (q : quat) : mat :=
  let '(QUAT w x y z) := q in
  MAT (1 - 2 * (y * y + z * z)) (2 * (x * y - z * w)) (2 * (x * z + y * w))
      (2 * (x * y + z * w)) (1 - 2 * (x * x + z * z)) (2 * (y * z - x * w))
      (2 * (x * z - y * w)) (2 * (y * z + x * w)) (1 - 2 * (x * x + y * y)).
(* 761-802 *)
Definition quat2rot (q : quat) : mat :=
  let n := qnorm q in
  rot_of (if negb (isclose n 0 || isclose n 1) then qdiv q n else q).
(* 804-815 *)
Definition quat2dcm (q : quat) : mat := transpose (quat2rot q).
(* 817-841 *)
Definition rotmul (l : list mat) : mat := fold_left mmul l eye.
(* 843-864 *)
Definition rotate (x : vec) (l : list mat) : vec := mapply (rotmul l) x.
(* 892-915 *)
Definition qmul (a b : quat) : quat :=
  QUAT (qw a * qw b - qx a * qx b - qy a * qy b - qz a * qz b)
       (qx a * qw b + qw a * qx b - qz a * qy b + qy a * qz b)
       (qy a * qw b + qz a * qx b + qw a * qy b - qx a * qz b)
       (qz a * qw b - qy a * qx b + qx a * qy b + qw a * qz b).
(* 866-920 *)
Definition quatmul (l : list quat) : quat := fold_left qmul l (QUAT 1 0 0 0).
(* 922-958 *)
Definition quat_rotate (x : vec) (l : list quat) : vec :=
  let q := quatmul l in
  let p := QUAT 0 (v0 x) (v1 x) (v2 x) in
  let c := QUAT (qw q) (- qx q) (- qy q) (- qz q) in
  let inv := qdiv c (qw c * qw c + qx c * qx c + qy c * qy c + qz c * qz c) in
  let r := quatmul [q; p; inv] in
  VEC (qx r) (qy r) (qz r).

(** ** axis and angle *)
(* 960-1008 *)
Definition skew (k : vec) : mat := MAT 0 (- v2 k) (v1 k) (v2 k) 0 (- v0 k) (- v1 k) (v0 k) 0.
Definition wxyz2rot (angle : R) (vector : vec) (u : angle_unit) : mat :=
  let t := rad u angle in
  let k := skew (vdiv vector (norm vector)) in
  madd (madd eye (mscale (sin t) k)) (mscale (1 - cos t) (mmul k k)).
(* 1133-1168 *)
Definition wxyz2quat (angle : R) (vector : vec) (u : angle_unit) : quat :=
  let h := rad u angle / 2 in
  let x := vdiv (vscale (sin h) vector) (norm vector) in
  QUAT (cos h) (v0 x) (v1 x) (v2 x).
(* 1189-1226 *)
Definition quat2wxyz (q : quat) (u : angle_unit) : R * vec :=
  let q := qdiv q (qnorm q) in
  let x := VEC (qx q) (qy q) (qz q) in
  let n := norm x in
  (unrad u (2 * arctan2 n (qw q)), if isclose n 0 then VEC 0 0 1 else vdiv x n).
(* 1250-1275 *)
Definition angle_between (a b : vec) (u : angle_unit) : R := unrad u (acos (vdot a b / (norm a * norm b))).

(* 1277-1350, roll given *)
Definition xhat : vec := VEC 1 0 0.
Definition yhat : vec := VEC 0 1 0.
Definition a2b_axis (a b : vec) : vec :=
  let k := cross a b in
  if isclose (norm k) 0 then
    let k := cross a xhat in
    if isclose (norm k) 0 then cross a yhat else k
  else k.
Definition a2b_noroll (a b : vec) : mat :=
  wxyz2rot (arctan2 (norm (cross a b)) (vdot a b)) (a2b_axis a b) Rad.
Definition rolled (roll : R) (u : angle_unit) (b : vec) (r : mat) : mat :=
  if Req_EM_T roll 0 then r else mmul (wxyz2rot (rad u roll) b Rad) r.
Definition unitv (a : vec) : vec := vdiv a (norm a).
Definition a2b_rot (a b : vec) (roll : R) (u : angle_unit) : mat :=
  let a := unitv a in let b := unitv b in
  rolled roll u b (a2b_noroll a b).
(* 1320-1338, new_x given (and roll = 0) *)
Definition sign (x : R) : R := if Rlt_dec 0 x then 1 else if Rlt_dec x 0 then -1 else 0.
Definition roll_for (r : mat) (b new_x : vec) (u : angle_unit) : R :=
  let nx := vsub new_x (vscale (vdot new_x b) b) in
  let n := norm nx in
  if isclose n 0 then 0
  else
    let cx := mapply r xhat in
    let nx := vdiv nx n in
    let cx := vdiv cx (norm cx) in
    unrad u (arctan2 (norm (cross cx nx)) (vdot cx nx)) * sign (vdot (cross cx nx) b).
Definition a2b_rot_x (a b new_x : vec) (u : angle_unit) : mat :=
  let a := unitv a in let b := unitv b in
  let r := a2b_noroll a b in
  rolled (roll_for r b new_x u) u b r.

(** ** extraction through np.linalg.eigh *)
(* np.argmax: the first of the greatest *)
Definition pick {A} (key : A -> R) (l : list A) (d : A) : A :=
  fold_left (fun best x => if Rlt_dec (key best) (key x) then x else best) (tl l) (hd d l).
Record vec4 := V4 { e0 : R; e1 : R; e2 : R; e3 : R }.
Record mat4 := M4 { r0 : vec4; r1 : vec4; r2 : vec4; r3 : vec4 }.
(* 708-726 *)
Definition k3 (r : mat) : mat4 :=
  let k01 := (m10 r + m01 r) / 3 in let k02 := (m20 r + m02 r) / 3 in let k03 := (m12 r - m21 r) / 3 in
  let k12 := (m21 r + m12 r) / 3 in let k13 := (m20 r - m02 r) / 3 in let k23 := (m01 r - m10 r) / 3 in
  M4 (V4 ((m00 r - m11 r - m22 r) / 3) k01 k02 k03)
     (V4 k01 ((m11 r - m00 r - m22 r) / 3) k12 k13)
     (V4 k02 k12 ((m22 r - m00 r - m11 r) / 3) k23)
     (V4 k03 k13 k23 ((m00 r + m11 r + m22 r) / 3)).
(* 681-740; [eigh] stands for np.linalg.eigh: eigenvalues with their eigenvectors *)
Definition rot2quat (eigh : mat4 -> list (R * vec4)) (r : mat) : quat :=
  let v := snd (pick fst (eigh (k3 r)) (0, V4 0 0 0 0)) in
  let q := QUAT (e3 v) (- e0 v) (- e1 v) (- e2 v) in
  qdiv q (qnorm q).
(* 742-759 *)
Definition dcm2quat (eigh : mat4 -> list (R * vec4)) (r : mat) : quat := rot2quat eigh (transpose r).
(* 1028-1107; [eigh] reads the lower triangle only (check_orthonormality only warns) *)
Definition lower (r : mat) : mat := MAT (m00 r) (m10 r) (m20 r) (m10 r) (m11 r) (m21 r) (m20 r) (m21 r) (m22 r).
Definition axial (r : mat) : vec := VEC (m21 r - m12 r) (m02 r - m20 r) (m10 r - m01 r).
Definition rot_axis (eigh : mat -> list (R * vec)) (r : mat) (quick : bool) : vec :=
  let u := if quick then axial r else VEC 0 0 0 in
  let u := if isclose (norm u) 0 then snd (pick (fun p => - Rabs (fst p - 1)) (eigh (lower r)) (0, VEC 0 0 0)) else u in
  vdiv u (norm u).
Definition angle_about (r : mat) (k : vec) : R * vec :=
  let d := norm (vsub xhat k) in
  let a := if Rlt_dec d (1 / 10) then yhat else if Rlt_dec (19 / 10) d then yhat else xhat in
  let b1 := cross a k in
  let b1 := vdiv b1 (norm b1) in
  let b2 := mapply r b1 in
  let b2 := vdiv b2 (norm b2) in
  (acos (clip (vdot b1 b2)), if Rlt_dec (vdot (cross b1 b2) k) 0 then vscale (-1) k else k).
Definition rot2wxyz (eigh : mat -> list (R * vec)) (r : mat) (quick : bool) (u : angle_unit) : R * vec :=
  let '(t, k) := angle_about r (rot_axis eigh r quick) in (unrad u t, k).
