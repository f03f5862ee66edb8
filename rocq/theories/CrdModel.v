(** Model of the coordinates of one axis: viscid/coordinate.py [extend_arr] (118-156),
    [_fill_crds_dict] (461-509), [nc2cc] (595-611, 1324-1342), [UniformCrds] (1221-1294,
    1351-1379), the coordinate part of [_make_slice] (663-720, 733-764) and of
    [make_slice_keep] (815-843).  Coordinates are exact rationals; dates are not
    modelled. *)
From Verif Require Export PySlice.
From Coq Require Export QArith Qabs.
Open Scope Q_scope.

Definition qat (l : list Q) (i : nat) : Q := nth i l 0.
Definition qn (n : nat) : Q := inject_Z (Z.of_nat n).

(* np.linspace(a, b, n) *)
Definition linspace (a b : Q) (n : nat) : list Q :=
  map (fun i => if (n =? 1)%nat then a else a + qn i * ((b - a) / (qn n - 1))) (seq 0 n).

(* coordinate.py 497-503: cell centres computed from nodes *)
Definition cells (x : list Q) : list Q :=
  if (length x =? 1)%nat then x
  else map (fun i => qat x i + (1 # 2) * (qat x (S i) - qat x i)) (seq 0 (length x - 1)).
(* 430-431 *)
Definition reflect_axis_arr (x : list Q) : list Q := map (fun v => - (1) * v) (rev x).
(* 461-509: nodes and centres of an axis *)
Definition axis_arrays (reflect : bool) (nc : list Q) (src_cc : option (list Q)) : list Q * list Q :=
  let nc' := if reflect then reflect_axis_arr nc else nc in
  (nc', match src_cc with Some cc => cc | None => cells nc' end).

(* 118-146, full_arr=True; None is IndexError *)
Definition extend_arr (x : list Q) (n_low n_high : nat) (cell_fraction default_width : Q) (width_arr : list Q) : option (list Q) :=
  let w := length width_arr in
  if (1 <? length x)%nat && (w <? 2)%nat then None
  else
    let dxl := if (1 <? length x)%nat then cell_fraction * (qat width_arr 1 - qat width_arr 0) else cell_fraction * default_width in
    let dxh := if (1 <? length x)%nat then cell_fraction * (qat width_arr (w - 1) - qat width_arr (w - 2)) else cell_fraction * default_width in
    if (length x =? 0)%nat && negb ((n_low =? 0)%nat && (n_high =? 0)%nat) then None
    else Some (rev (map (fun i => qat x 0 - (qn i + 1) * dxl) (seq 0 n_low))
               ++ x ++ map (fun i => qat x (length x - 1) + (qn i + 1) * dxh) (seq 0 n_high)).
(* 147-155, full_arr=False with cell_fraction 1 *)
Definition extend_lin (xl xh : Q) (nx n_low n_high : nat) (default_width : Q) : Q * Q * nat :=
  let dx := if (1 <? nx)%nat then (xh - xl) / (qn nx - 1) else default_width in
  (xl - qn n_low * dx, xh + qn n_high * dx, (nx + n_low + n_high)%nat).

(* 595-611: new nodes of an axis *)
Definition nc2cc (default_width : Q) (nc cc : list Q) : option (list Q) := extend_arr cc 1 1 1 default_width nc.

(** ** uniform coordinates: [args] is [xl, xh, n] *)
Record args := ARGS { a_xl : Q; a_xh : Q; a_n : nat }.
Definition uni_nodes (a : args) : list Q := linspace (a_xl a) (a_xh a) (a_n a).         (* 1373-1379 *)
Definition cc_args (a : args) : args :=                                                  (* 1262-1266 *)
  let half_dx := (1 # 2) * (a_xh a - a_xl a) / qn (Nat.max (a_n a) 1) in
  ARGS (a_xl a + half_dx) (a_xh a - half_dx) (Nat.max (a_n a - 1) 0).
Definition a_L (a : args) : Q := a_xh a - a_xl a.                                        (* 1275, 1287 *)
Definition min_dx_nc (a : args) : Q := a_L a / qn (a_n a).                               (* 1276 *)
(* 1324-1342; [abs(dx) > 0] selects [dx] or the default *)
Definition uni_nc2cc (default_width : Q) (a : args) : args :=
  let dx := (a_xh a - a_xl a) / qn (a_n a) in
  let dx := if Qeq_bool dx 0 then default_width else dx in
  ARGS (a_xl a - (1 # 2) * dx) (a_xh a + (1 # 2) * dx) (a_n a + 1).
(* 1351-1370: one entry of the coordinate list *)
Definition uni_clist (reflect : bool) (a : args) : args :=
  if reflect then ARGS (- a_xh a) (- a_xl a) (a_n a) else a.

(* np.diff *)
Definition np_diff (x : list Q) : list Q := map (fun i => qat x (S i) - qat x i) (seq 0 (length x - 1)).
(* np.allclose(d0, d, rtol = 4 eps) with the default atol = 1e-8 *)
Definition atol : Q := 1 # 100000000.
Definition rtol : Q := 4 # (2 ^ 52).
Definition allclose (d0 : Q) (ds : list Q) : bool := forallb (fun d => Qle_bool (Qabs (d0 - d)) (atol + rtol * Qabs d)) ds.
(* 1238-1258: uniform coordinates from a full array; None is NonuniformFullArrayError *)
Definition uniform_of_array (x : list Q) : option args :=
  if allclose (qat (np_diff x) 0) (np_diff x) then Some (ARGS (qat x 0) (qat x (length x - 1)) (length x)) else None.

(** ** slicing one axis of a cell centred field *)
(* 676-706: new nodes and, if the step is not 1 or -1, explicit centres.  None is an
   exception of Python. *)
Definition cc_slice (nc cc : list Q) (s : pslice) : option (list Q * option (list Q)) :=
  match p_step s with
  | Some k =>
      if negb ((k =? 1) || (k =? -1))%Z then
        match getslice cc s, getslice nc (PS (p_start s) (p_stop s) (Some (k / Z.abs k)%Z)) with
        | Some crd_cc, Some ((n0 :: _) as allnc) =>
            let mids := map (fun i => (1 # 2) * (qat crd_cc (S i) + qat crd_cc i)) (seq 0 (length crd_cc - 1)) in
            Some (n0 :: mids ++ [qat allnc (length allnc - 1)], Some crd_cc)
        | _, _ => None
        end
      else
        let stop' := match p_stop s with
                     | Some t => Some (if (0 <=? t)%Z then (if (0 <? k)%Z then t + 1 else t - 1)%Z else t)
                     | None => None end in
        option_map (fun x => (x, None)) (getslice nc (PS (p_start s) stop' (p_step s)))
  | None =>
      let stop' := match p_stop s with Some t => Some (if (0 <=? t)%Z then t + 1 else t)%Z | None => None end in
      option_map (fun x => (x, None)) (getslice nc (PS (p_start s) stop' None))
  end.
(* 733-764 and the constructors: the coordinates of the new field; those of uniform type
   stay uniform if the differences are close, and then only the nodes are used *)
Definition sliced_axis (uniform : bool) (nc cc : list Q) (s : pslice) : option (list Q * list Q) :=
  match cc_slice nc cc s with
  | Some (((_ :: _) as nc'), cc') =>
      if uniform && ((length nc' =? 1)%nat || allclose (qat (np_diff nc') 0) (np_diff nc'))
      then let n := linspace (qat nc' 0) (qat nc' (length nc' - 1)) (length nc') in Some (axis_arrays false n None)
      else Some (axis_arrays false nc' cc')
  | _ => None                                                                            (* clist_i[1][0]: IndexError *)
  end.
(* 815-846 (827-836): an axis selected with one index and put back: nodes, and the slice of the data *)
Definition keep_axis_cc (nc : list Q) (loc : Z) : option (list Q) * pslice :=
  if (loc =? -1)%Z then (getslice nc (PS (Some (-2)%Z) None None), PS (Some (-1)%Z) None None)
  else if (loc =? -2)%Z then (getslice nc (PS (Some (-2)%Z) None None), PS (Some (-2)%Z) (Some (-1)%Z) None)
  else (getslice nc (PS (Some loc) (Some (loc + 2)%Z) None), PS (Some loc) (Some (loc + 1)%Z) None).
(* 837-843: the same for node centred fields *)
Definition keep_axis_nc (nc : list Q) (loc : Z) : option (list Q) * pslice :=
  if (loc =? -1)%Z then (getslice nc (PS (Some (-1)%Z) None None), PS (Some (-1)%Z) None None)
  else (getslice nc (PS (Some loc) (Some (loc + 1)%Z) None), PS (Some loc) (Some (loc + 1)%Z) None).
