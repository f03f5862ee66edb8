(** Model of viscid/cython/integrate.pyx over the reals: one step of each integrator.  The field with
    its interpolation is a function of the point; None is a nan.  The index cache is left out: by C12
    it does not change interpolated values.  dt is always accumulated (dt != NULL). *)
From Verif Require Export R3.
From Coq Require Export List Bool.
Export ListNotations.
Open Scope R_scope.

Definition field := vec -> option vec.
(* 39-43, 94-98, ...: vscale * interpolated field, and its length; None: return 1 *)
Definition sample (fld : field) (vs x : vec) : option (vec * R) :=
  match fld x with
  | None => None
  | Some v => let w := vmul vs v in let m := norm w in if Req_EM_T m 0 then None else Some (w, m)
  end.
(* 102-104: k *= h / kmag *)
Definition kstep (h : R) (wm : vec * R) : vec := vscale (h / snd wm) (fst wm).
(* dt[0] += h / d; None when d is zero, an infinite time *)
Definition add_time (dt h d : R) : option R := if Req_EM_T d 0 then None else Some (dt + h / d).
(* what a call leaves in x, *ds and *dt; [Stopped]: it returned 1, x and dt as they were *)
Inductive step_result := Stopped (ds : R) | Moved (x : vec) (ds : R) (dt : option R).
(* sum of coefficients times vectors, in the order of the source *)
Definition lin2 a x b y := vadd (vscale a x) (vscale b y).
Definition lin3 a x b y c z := vadd (lin2 a x b y) (vscale c z).
Definition lin4 a x b y c z d w := vadd (lin3 a x b y c z) (vscale d w).
Definition lin5 a x b y c z d w e v := vadd (lin4 a x b y c z d w) (vscale e v).
Definition lin6 a x b y c z d w e v f u := vadd (lin5 a x b y c z d w e v) (vscale f u).

(* 34-56 *)
Definition euler1 (fld : field) (vs x : vec) (ds dt : R) : step_result :=
  match sample fld vs x with
  | None => Stopped ds
  | Some (v, m) => Moved (vadd x (VEC (ds * v0 v / m) (ds * v1 v / m) (ds * v2 v / m))) ds (add_time dt ds m)
  end.
(* 58-127 *)
Definition rk2 (fld : field) (vs x1 : vec) (ds dt : R) : step_result :=
  let h := ds in
  match sample fld vs x1 with
  | None => Stopped ds
  | Some s1 =>
    let k1 := kstep h s1 in
    match sample fld vs (vadd x1 (vscale (1 / 2) k1)) with
    | None => Stopped ds
    | Some s2 =>
      let k2 := kstep h s2 in
      Moved (vadd x1 (lin2 0 k1 1 k2)) ds (add_time dt h (0 * snd s1 + 1 * snd s2))
    end
  end.
(* 129-243 *)
Definition rk4 (fld : field) (vs x1 : vec) (ds dt : R) : step_result :=
  let h := ds in
  match sample fld vs x1 with
  | None => Stopped ds
  | Some s1 =>
    let k1 := kstep h s1 in
    match sample fld vs (vadd x1 (vscale (1 / 2) k1)) with
    | None => Stopped ds
    | Some s2 =>
      let k2 := kstep h s2 in
      match sample fld vs (vadd x1 (lin2 0 k1 (1 / 2) k2)) with
      | None => Stopped ds
      | Some s3 =>
        let k3 := kstep h s3 in
        match sample fld vs (vadd x1 (lin3 0 k1 0 k2 1 k3)) with
        | None => Stopped ds
        | Some s4 =>
          let k4 := kstep h s4 in
          Moved (vadd x1 (lin4 (1 / 6) k1 (1 / 3) k2 (1 / 3) k3 (1 / 6) k4)) ds
                (add_time dt h (1 / 6 * snd s1 + 1 / 3 * snd s2 + 1 / 3 * snd s3 + 1 / 6 * snd s4))
        end
      end
    end
  end.

(* 250-287; the new step, and whether to repeat.  max_error > 0 and ds <> 0 *)
Definition ts_ctrl (ds err max_error smallest largest : R) : bool * R :=
  let err_ratio := Rabs err / max_error in
  let abs_ds := Rabs ds in
  let sign := ds / abs_ds in
  if Req_EM_T err_ratio 0 then (false, ds)
  else if Rle_dec 1 err_ratio then
    if Rle_dec abs_ds smallest then (false, sign * smallest)
    else let ds' := 9 / 10 * ds * Rpower err_ratio (- (1 / 4)) in
         (true, if Rle_dec (Rabs ds') smallest then sign * smallest else ds')
  else
    if Rle_dec largest abs_ds then (false, sign * largest)
    else let ds' := 9 / 10 * ds * Rpower err_ratio (- (1 / 5)) in
         (false, if Rle_dec largest (Rabs ds') then sign * largest else ds').

(* one pass of the while loops: the point reached with step h, the error estimate and the speed that
   dt is divided by; None: return 1 *)
Definition attempt := R -> option (vec * R * R).
(* 308-348 *)
Definition euler1a_try (fld : field) (vs x1 : vec) : attempt := fun h =>
  match sample fld vs x1 with
  | None => None
  | Some s1 =>
    let k1 := kstep h s1 in
    let x2 := vadd x1 k1 in
    match sample fld vs x2 with
    | None => None
    | Some s2 =>
      let k2 := kstep h s2 in
      let x3 := vadd x1 (vsub k1 k2) in
      Some (x2, norm (vsub x3 x1) / h, snd s1)
    end
  end.
(* 403-449 *)
Definition rk12_try (fld : field) (vs x1 : vec) : attempt := fun h =>
  match sample fld vs x1 with
  | None => None
  | Some s1 =>
    let k1 := kstep h s1 in
    match sample fld vs (vadd x1 (vscale (1 / 2) k1)) with
    | None => None
    | Some s2 =>
      let k2 := kstep h s2 in
      let x_rk1 := vadd x1 (lin2 1 k1 0 k2) in
      let x_rk2 := vadd x1 (lin2 0 k1 1 k2) in
      Some (x_rk1, norm (vsub x_rk2 x_rk1) / h, 0 * snd s1 + 1 * snd s2)
    end
  end.
(* 534-643; coefficients 499-529 *)
Definition rk45_try (fld : field) (vs x1 : vec) : attempt := fun h =>
  match sample fld vs x1 with
  | None => None
  | Some s1 =>
    let k1 := kstep h s1 in
    match sample fld vs (vadd x1 (vscale (1 / 4) k1)) with
    | None => None
    | Some s2 =>
      let k2 := kstep h s2 in
      match sample fld vs (vadd x1 (lin2 (3 / 32) k1 (9 / 32) k2)) with
      | None => None
      | Some s3 =>
        let k3 := kstep h s3 in
        match sample fld vs (vadd x1 (lin3 (1932 / 2197) k1 (- (7200 / 2197)) k2 (7296 / 2197) k3)) with
        | None => None
        | Some s4 =>
          let k4 := kstep h s4 in
          match sample fld vs (vadd x1 (lin4 (439 / 216) k1 (- 8) k2 (3680 / 513) k3 (- (845 / 4104)) k4)) with
          | None => None
          | Some s5 =>
            let k5 := kstep h s5 in
            match sample fld vs (vadd x1 (lin5 (- (8 / 27)) k1 2 k2 (- (3544 / 2565)) k3 (1859 / 4104) k4 (- (11 / 40)) k5)) with
            | None => None
            | Some s6 =>
              let k6 := kstep h s6 in
              let x_rk4 := vadd x1 (lin6 (25 / 216) k1 0 k2 (1408 / 2565) k3 (2197 / 4104) k4 (- (1 / 5)) k5 0 k6) in
              let x_rk5 := vadd x1 (lin6 (16 / 135) k1 0 k2 (6656 / 12825) k3 (28561 / 56430) k4 (- (9 / 50)) k5 (2 / 55) k6) in
              Some (x_rk4, norm (vsub x_rk5 x_rk4) / h,
                    16 / 135 * snd s1 + 0 * snd s2 + 6656 / 12825 * snd s3 + 28561 / 56430 * snd s4 + - (9 / 50) * snd s5 + 2 / 55 * snd s6)
            end
          end
        end
      end
    end
  end.
(* the while loop with its ending, e.g. 308-363; [fuel] bounds the number of passes, None when it is
   used up *)
Fixpoint adaptive (try : attempt) (max_error smallest largest : R) (fuel : nat) (ds dt : R) : option step_result :=
  match fuel with
  | O => None
  | S fuel =>
    match try ds with
    | None => Some (Stopped ds)
    | Some (x, err, speed) =>
      let (repeat, ds') := ts_ctrl ds err max_error smallest largest in
      if repeat then adaptive try max_error smallest largest fuel ds' dt
      else Some (Moved x ds' (add_time dt ds speed))
    end
  end.

(* streamline.pyx 49-54, 465-478 *)
Inductive method := EULER1 | RK2 | RK4 | EULER1A | RK12 | RK45.
Definition integrate (m : method) (fuel : nat) (fld : field) (vs x : vec) (ds dt max_error smallest largest : R) : option step_result :=
  match m with
  | EULER1 => Some (euler1 fld vs x ds dt)
  | RK2 => Some (rk2 fld vs x ds dt)
  | RK4 => Some (rk4 fld vs x ds dt)
  | EULER1A => adaptive (euler1a_try fld vs x) max_error smallest largest fuel ds dt
  | RK12 => adaptive (rk12_try fld vs x) max_error smallest largest fuel ds dt
  | RK45 => adaptive (rk45_try fld vs x) max_error smallest largest fuel ds dt
  end.
(* streamline.pyx 456-462; 0 for the others, which do not use it *)
Definition default_error (m : method) : R :=
  match m with EULER1A => 4 / 100 | RK12 => 3 / 200 | RK45 => 1 / 10 ^ 5 | _ => 0 end.
