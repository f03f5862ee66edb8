(** Vectors and matrices of real numbers: numpy arrays of shape (3,) and (3, 3) of doubles
    (rounding is not modelled). *)
From Coq Require Export Reals.
Open Scope R_scope.

Record vec := VEC { v0 : R; v1 : R; v2 : R }.
Definition vadd (a b : vec) : vec := VEC (v0 a + v0 b) (v1 a + v1 b) (v2 a + v2 b).
Definition vsub (a b : vec) : vec := VEC (v0 a - v0 b) (v1 a - v1 b) (v2 a - v2 b).
Definition vscale (c : R) (a : vec) : vec := VEC (c * v0 a) (c * v1 a) (c * v2 a).
Definition vmul (a b : vec) : vec := VEC (v0 a * v0 b) (v1 a * v1 b) (v2 a * v2 b).
Definition vsum (a : vec) : R := v0 a + v1 a + v2 a.
Definition vdiv (a : vec) (c : R) : vec := VEC (v0 a / c) (v1 a / c) (v2 a / c).
(* np.linalg.norm *)
Definition norm (a : vec) : R := sqrt (v0 a * v0 a + v1 a * v1 a + v2 a * v2 a).
(* np.cross *)
Definition cross (a b : vec) : vec :=
  VEC (v1 a * v2 b - v2 a * v1 b) (v2 a * v0 b - v0 a * v2 b) (v0 a * v1 b - v1 a * v0 b).
Definition vdot (a b : vec) : R := v0 a * v0 b + v1 a * v1 b + v2 a * v2 b.

Record mat := MAT { m00 : R; m01 : R; m02 : R; m10 : R; m11 : R; m12 : R; m20 : R; m21 : R; m22 : R }.
(* np.matmul *)
Definition mmul (a b : mat) : mat :=
  MAT (m00 a * m00 b + m01 a * m10 b + m02 a * m20 b) (m00 a * m01 b + m01 a * m11 b + m02 a * m21 b) (m00 a * m02 b + m01 a * m12 b + m02 a * m22 b)
      (m10 a * m00 b + m11 a * m10 b + m12 a * m20 b) (m10 a * m01 b + m11 a * m11 b + m12 a * m21 b) (m10 a * m02 b + m11 a * m12 b + m12 a * m22 b)
      (m20 a * m00 b + m21 a * m10 b + m22 a * m20 b) (m20 a * m01 b + m21 a * m11 b + m22 a * m21 b) (m20 a * m02 b + m21 a * m12 b + m22 a * m22 b).
Definition mapply (a : mat) (x : vec) : vec :=
  VEC (m00 a * v0 x + m01 a * v1 x + m02 a * v2 x) (m10 a * v0 x + m11 a * v1 x + m12 a * v2 x) (m20 a * v0 x + m21 a * v1 x + m22 a * v2 x).
Definition madd (a b : mat) : mat :=
  MAT (m00 a + m00 b) (m01 a + m01 b) (m02 a + m02 b) (m10 a + m10 b) (m11 a + m11 b) (m12 a + m12 b) (m20 a + m20 b) (m21 a + m21 b) (m22 a + m22 b).
Definition mscale (c : R) (a : mat) : mat :=
  MAT (c * m00 a) (c * m01 a) (c * m02 a) (c * m10 a) (c * m11 a) (c * m12 a) (c * m20 a) (c * m21 a) (c * m22 a).
(* np.swapaxes(-2, -1) *)
Definition transpose (a : mat) : mat := MAT (m00 a) (m10 a) (m20 a) (m01 a) (m11 a) (m21 a) (m02 a) (m12 a) (m22 a).
(* np.eye(3) *)
Definition eye : mat := MAT 1 0 0 0 1 0 0 0 1.
Definition det (a : mat) : R :=
  m00 a * (m11 a * m22 a - m12 a * m21 a) - m01 a * (m10 a * m22 a - m12 a * m20 a) + m02 a * (m10 a * m21 a - m11 a * m20 a).

(** a proper rotation: its transpose is its inverse and it keeps orientation *)
Definition rotation (a : mat) : Prop := mmul a (transpose a) = eye /\ det a = 1.

(* np.arctan2 *)
Definition arctan2 (y x : R) : R :=
  if Rlt_dec 0 x then atan (y / x)
  else if Rlt_dec x 0 then (if Rle_dec 0 y then atan (y / x) + PI else atan (y / x) - PI)
  else if Rlt_dec 0 y then PI / 2 else if Rlt_dec y 0 then - PI / 2 else 0.
