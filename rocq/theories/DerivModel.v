(** Model of the discrete derivatives: viscid/calculator/calc.py [_grad_np] (210-243),
    [_div_np] (246-281), [_curl_np] (284-323) and the numexpr versions with the same
    formulas (necalc.py 129-248).

    Values are rationals: rounding is not modelled.  A quotient by zero is 0 here and
    inf or nan in the program; the theorems ask for distinct coordinates.  Fields have three
    axes (others fail when the coordinates are unpacked); the components of a vector field are
    a list of arrays, each extended on its own. *)
From Verif Require Export ExtendModel.
Open Scope Z_scope.

(** nodes and centres of an axis, arrays of rank 1 *)
Record axis := AX { nodes : nd Q; centres : nd Q }.
(** [cell]: centred on cells, otherwise on nodes *)
Record fld := FLD { cell : bool; ax : nat -> axis; comps : list (nd Q) }.

Definition len (a : nd Q) : Z := nth 0 (shape a) 0.
Definition at1 (a : nd Q) (i : Z) : Q := get a [i].
(* coordinate.py 497-503: centres computed from nodes *)
Definition mid (a : nd Q) : nd Q :=
  if len a =? 1 then a
  else ND [len a - 1] (fun js => at1 a (hd 0%Z js) + (1 # 2) * (at1 a (hd 0%Z js + 1)%Z - at1 a (hd 0%Z js)))%Q.

(* v[o0 : o0 - 2 or end, ...]: the slices 2:, 1:-1 and :-2 of every axis have two places less
   and start at 2, 1 and 0 *)
Fixpoint add_ix (a b : list Z) : list Z :=
  match a, b with x :: a', y :: b' => (x + y) :: add_ix a' b' | _, _ => [] end.
Definition cut (v : nd Q) (o : list Z) : nd Q :=
  ND (map (fun L => Z.max 0 (L - 2)) (shape v)) (fun js => get v (add_ix o js)).

(* fld.crds.slice_keep(np.s_[1:-1, 1:-1, 1:-1]): nodes are sliced, centres computed anew; for
   cell centred fields fld['x=1:-1, ...'].crds slices the nodes in the same way *)
Definition trim (a : axis) : axis := let n := cut (nodes a) [1] in AX n (mid n).

(* 213, 252, 287: extend_boundaries(fld, order=0, crd_order=0), one layer, with the default
   invarient_dx = 0 and crd_invarient_dx = 1 *)
Fixpoint all_ext (l : list (nd Q)) : option (list (nd Q)) :=
  match l with
  | [] => Some []
  | v :: r => match extend_boundaries_ndarr 1 1 0 v (AxList [0; 1; 2]%nat) None 0, all_ext r with
              | Some v', Some r' => Some (v' :: r')
              | _, _ => None
              end
  end.
Definition ext_axis (a : axis) : option axis :=
  option_map (fun p => AX (fst p) (snd p)) (extend_crds 1 1 1 0 (nodes a) (centres a)).
Definition prep (bnd : bool) (f : fld) : option fld :=
  if bnd then
    match all_ext (comps f), ext_axis (ax f 0), ext_axis (ax f 1), ext_axis (ax f 2) with
    | Some c, Some a0, Some a1, Some a2 => Some (FLD (cell f) (fun k => match k with 0%nat => a0 | 1%nat => a1 | _ => a2 end) c)
    | _, _, _, _ => None
    end
  else Some f.

(* get_crds_cc or get_crds_nc *)
Definition crd (f : fld) (k : nat) : nd Q := if cell f then centres (ax f k) else nodes (ax f k).

(* (vp - vm) / (xp - xm) along axis [k] *)
Definition plus (k : nat) : list Z := match k with 0%nat => [2; 1; 1] | 1%nat => [1; 2; 1] | _ => [1; 1; 2] end.
Definition minus (k : nat) : list Z := match k with 0%nat => [0; 1; 1] | 1%nat => [1; 0; 1] | _ => [1; 1; 0] end.
Definition dd (k : nat) (v x : nd Q) : nd Q :=
  let vp := cut v (plus k) in let vm := cut v (minus k) in
  let xp := cut x [2] in let xm := cut x [0] in
  ND (shape vp) (fun js => (get vp js - get vm js) / (at1 xp (nth k js 0%Z) - at1 xm (nth k js 0%Z)))%Q.
(* arithmetic of arrays of one shape *)
Definition op2 (o : Q -> Q -> Q) (a b : nd Q) : nd Q := ND (shape a) (fun js => o (get a js) (get b js)).
Definition opp1 (a : nd Q) : nd Q := ND (shape a) (fun js => - get a js)%Q.

(* dst[...] = src: every length is the same or 1 *)
Fixpoint fits (dst src : list Z) : bool :=
  match dst, src with
  | [], [] => true
  | d :: dst', s :: src' => ((s =? d) || (s =? 1)) && fits dst' src'
  | _, _ => false
  end.

(* 210-243; the result [g] is cell centred because that is the default of viscid.zeros *)
Definition grad (bnd : bool) (f : fld) : option fld :=
  match prep bnd f with
  | Some f => match comps f with
              | [v] =>
                  let ax' := fun k => trim (ax f k) in
                  let gshape := [len (centres (ax' 0%nat)); len (centres (ax' 1%nat)); len (centres (ax' 2%nat))] in
                  let gx := dd 0 v (crd f 0) in let gy := dd 1 v (crd f 1) in let gz := dd 2 v (crd f 2) in
                  if fits gshape (shape gx) then
                    Some (FLD true ax' [ND gshape (get gx); ND gshape (get gy); ND gshape (get gz)])
                  else None                                                              (* ValueError *)
              | _ => None
              end
  | None => None
  end.
(* 246-281 *)
Definition div (bnd : bool) (f : fld) : option fld :=
  match prep bnd f with
  | Some f => match comps f with
              | [vx; vy; vz] =>
                  let r := op2 Qplus (op2 Qplus (dd 0 vx (crd f 0)) (dd 1 vy (crd f 1))) (dd 2 vz (crd f 2)) in
                  Some (FLD (cell f) (fun k => trim (ax f k)) [r])
              | _ => None
              end
  | None => None
  end.
(* 284-323 *)
Definition curl (bnd : bool) (f : fld) : option fld :=
  match prep bnd f with
  | Some f => match comps f with
              | [vx; vy; vz] =>
                  let cx := op2 Qminus (dd 1 vz (crd f 1)) (dd 2 vy (crd f 2)) in
                  let cy := op2 Qplus (opp1 (dd 0 vz (crd f 0))) (dd 2 vx (crd f 2)) in
                  let cz := op2 Qminus (dd 0 vy (crd f 0)) (dd 1 vx (crd f 1)) in
                  Some (FLD (cell f) (fun k => trim (ax f k)) [cx; cy; cz])
              | _ => None
              end
  | None => None
  end.
