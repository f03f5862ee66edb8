(** Model of the vector operations of viscid/calculator/calc.py (42-211, 367-373) with their two sets of implementations:
    numexpr (viscid/calculator/necalc.py 28-148) and numpy (calc.py 164-208), and of the choice between them (42-88).

    Fields as in FldModel.v, operators, wrapping and reductions as in ArithModel.v, over the reals.
    SIMPLIFICATIONS: numexpr evaluates an expression like numpy, with the same broadcasting; [component_views] takes the
    components out of the loaded array; casts of numbers to the type of the arrays are not modelled; the names of the
    results are not modelled. *)
From Coq Require Import String Reals.
From Verif Require Export ArithModel.
Open Scope Z_scope.

(** ** which implementation is used *)
Section DISPATCH.
Context {F : Type}.
Definition imps := list (string * F).
Definition default_backends : list string := ["numexpr"; "cython"; "numpy"]%string.        (* 42 *)
Fixpoint lookup (name : string) (l : imps) : option F :=
  match l with [] => None | (k, f) :: r => if String.eqb name k then Some f else lookup name r end.
Fixpoint first_of (names : list string) (l : imps) : option F :=
  match names with [] => None | n :: r => match lookup n l with Some f => Some f | None => first_of r l end end.
(* 66-88; [preferred] is None or a list, a single name counts as a list of one; [None]: BackendNotFound *)
Definition get_imp (l : imps) (preferred : option (list string)) (only : bool) : option F :=
  let names := match preferred with None => map fst l | Some p => p end in
  match first_of names l with
  | Some f => Some f
  | None => if only then None
            else match first_of default_backends l with
                 | Some f => Some f
                 | None => match l with [] => None | (_, f) :: _ => Some f end
                 end
  end.
End DISPATCH.

(** ** arrays *)
Section ARR.
Context {C : Type}.
Definition bin {V W X} (op : V -> W -> X) (a : option (nd V)) (b : option (nd W)) : option (nd X) :=
  match a, b with Some a, Some b => nd_map2 op a b | _, _ => None end.
Definition un {V X} (op : V -> X) (a : option (nd V)) : option (nd X) := option_map (nd_map op) a.
(* field.py 2320-2339 *)
Definition comp_view {V} (f : fld C V) (c : Z) : option (nd V) :=
  match load f with
  | None => None
  | Some a => Some (match layout_of f with
                    | LInter => ND (removelast (shape a)) (fun js => get a (js ++ [c]))
                    | _ => ND (tl (shape a)) (fun js => get a (c :: js))
                    end)
  end.
(** [vx, vy, vz = fld.component_views()]; ValueError unless there are three *)
Definition three {V} (f : fld C V) : bool := match nr_comps f with Some n => n =? 3 | None => false end.
Definition view3 {V} (f : fld C V) (c : Z) : option (nd V) := if three f then comp_view f c else None.

(* field.py 1814-1893 with a given type of field *)
Definition wrap_as {X} (vec : bool) (cs : list (crd C)) (a : option (nd X)) : @wrapped C X :=
  match a with
  | None => WErr
  | Some a =>
      if prod (shape a) =? 1 then WNum (get a (map (fun _ => 0) (shape a)))
      else let f := F vec cs (map (fun _ => false) cs) (SArr a) false None in
           match nr_comps f with None => WErr | Some n => if n =? 1 then WComp0 f else WFld f end
  end.
(* field.py 1814-1893 for a list of three arrays, which has no size *)
Definition wrap_list {X} (vec : bool) (cs : list (crd C)) (x y z : option (nd X)) : @wrapped C X :=
  match x, y, z with
  | Some x, Some y, Some z =>
      let sh := sshape_of cs in
      let a := 3 :: shape x in
      let v := if leqb a sh then false else if leqb (tl a) sh || leqb (removelast a) sh then true else vec in
      WFld (F v cs (map (fun _ => false) cs) (SList [x; y; z]) false None)
  | _, _, _ => WErr
  end.
End ARR.

(** ** the operations *)
Section VEC.
Context {C : Type}.
Implicit Types (f g : fld C R) (cs : list (crd C)).
Open Scope R_scope.

Definition sqr (x : R) : R := x * x.
Definition norm3 (x y z : option (nd R)) : option (nd R) := un sqrt (bin Rplus (bin Rplus (un sqr x) (un sqr y)) (un sqr z)).
Definition dot3 (ax ay az bx by_ bz : option (nd R)) : option (nd R) :=
  bin Rplus (bin Rplus (bin Rmult ax bx) (bin Rmult ay by_)) (bin Rmult az bz).
Definition rsum (l : list R) : R := fold_right Rplus 0 l.

(* necalc.py 94-97 *)
Definition ne_magnitude cs f : @wrapped C R := wrap_as false cs (norm3 (view3 f 0) (view3 f 1) (view3 f 2)).
(* necalc.py 99-104 *)
Definition ne_dot cs f g : @wrapped C R :=
  wrap_as false cs (dot3 (view3 f 0) (view3 f 1) (view3 f 2) (view3 g 0) (view3 g 1) (view3 g 2)).
(* necalc.py 106-113 and calc.py 200-208 *)
Definition cross cs f g : @wrapped C R :=
  let '(ax, ay, az) := (view3 f 0, view3 f 1, view3 f 2) in
  let '(bx, by_, bz) := (view3 g 0, view3 g 1, view3 g 2) in
  wrap_list (f_vec f) cs (bin Rminus (bin Rmult ay bz) (bin Rmult az by_))
                         (bin Rplus (bin Rmult (un Ropp ax) bz) (bin Rmult az bx))
                         (bin Rminus (bin Rmult ax by_) (bin Rmult ay bx)).
(* necalc.py 115-128 *)
Definition ne_project cs f g : @wrapped C R :=
  let '(ax, ay, az) := (view3 f 0, view3 f 1, view3 f 2) in
  let '(bx, by_, bz) := (view3 g 0, view3 g 1, view3 g 2) in
  wrap_as false cs (bin Rdiv (dot3 ax ay az bx by_ bz) (norm3 bx by_ bz)).
(* necalc.py 130-135 *)
Definition ne_normalize cs f : @wrapped C R :=
  match as_layout cs LFlat f with
  | WFld f' => wrap_as true cs (bin Rdiv (load f') (norm3 (view3 f 0) (view3 f 1) (view3 f 2)))
  | _ => WErr
  end.

(** the axis of the components, as a number; TypeError for scalar fields *)
Definition comp_axis f : option Z := option_map Z.of_nat (nr_comp f).
(** [np.sum(f * g, axis=axis)] *)
Definition sum_prod cs f g (axis : option Z) : @wrapped C R :=
  match axis with
  | None => WErr
  | Some k => match arith Rmult cs f (OFld g) with WFld h => reduce rsum cs h k None | _ => WErr end
  end.
(** a function of a field or number *)
Definition wmap (op : R -> R) cs (w : @wrapped C R) : @wrapped C R :=
  match w with WFld h => unary op cs h | WNum v => WNum (op v) | w => w end.
(* calc.py 176-178 *)
Definition np_magnitude cs f : @wrapped C R := wmap sqrt cs (sum_prod cs f f (comp_axis f)).
(* calc.py 180-184 *)
Definition np_project cs f g : @wrapped C R :=
  match sum_prod cs f g (comp_axis g), wmap sqrt cs (sum_prod cs g g (comp_axis g)) with
  | WFld h, WFld d => arith Rdiv cs h (OFld d)
  | WNum v, WNum d => WNum (v / d)
  | _, _ => WErr
  end.
(* calc.py 186-191: [np.linalg.norm] takes the array, its result is an array *)
Definition np_normalize cs f : @wrapped C R :=
  match load f, nr_comp f with
  | Some a, Some k =>
      match nd_reshape (set_nth k 1%Z (shape a)) (nd_reduce k false (fun l => sqrt (rsum (map sqr l))) a) with
      | Some m => arith Rdiv cs f (@OArr C R m)
      | None => WErr
      end
  | _, _ => WErr
  end.
(* calc.py 193-198 *)
Definition np_dot cs f g : @wrapped C R :=
  match nr_comp f, nr_comp g with
  | Some i, Some j => if (i =? j)%nat then sum_prod cs f g (comp_axis f) else WErr          (* ValueError *)
  | _, _ => WErr
  end.

Inductive backend := Numexpr | Numpy.
(* calc.py 96-115: the result is given a name; AttributeError if it is a number *)
Definition named (w : @wrapped C R) : @wrapped C R := match w with WNum _ => WErr | w => w end.
Definition magnitude (be : backend) cs f := named (match be with Numexpr => ne_magnitude cs f | Numpy => np_magnitude cs f end).
Definition dot (be : backend) cs f g := named (match be with Numexpr => ne_dot cs f g | Numpy => np_dot cs f g end).
Definition project (be : backend) cs f g := named (match be with Numexpr => ne_project cs f g | Numpy => np_project cs f g end).
Definition normalize (be : backend) cs f := named (match be with Numexpr => ne_normalize cs f | Numpy => np_normalize cs f end).
(* calc.py 367-373; [cs] are the coordinates of [a] *)
Definition project_vector (be : backend) cs f g : @wrapped C R :=
  match normalize be cs g with
  | WFld b => match project be cs f b with WFld h => arith Rmult cs h (OFld b) | _ => WErr end
  | _ => WErr
  end.
(* necalc.py 28-68: the operators on two fields, on their arrays as they are, and calc.py 164-174 *)
Definition binary (be : backend) (op : R -> R -> R) cs f g : @wrapped C R :=
  named match be with
  | Numexpr => match bin op (load f) (load g) with Some r => wrap (f_vec f) cs r None | None => WErr end
  | Numpy => arith op cs f (OFld g)
  end.
Definition relative_diff (be : backend) cs f g : @wrapped C R :=
  match be with
  | Numexpr => binary Numexpr (fun a b => (a - b) / a) cs f g
  | Numpy => named (match arith Rminus cs f (OFld g) with WFld h => arith Rdiv cs h (OFld f) | _ => WErr end)
  end.
End VEC.
