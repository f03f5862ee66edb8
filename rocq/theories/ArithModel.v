(** Model of the arithmetic of viscid/field.py: [_ow] and the binary and unary operators
    (1909-2006, 2375-2389), the reductions along an axis with the part of [wrap] that they use
    (1814-1893, 2008-2059).

    Arrays as in FldModel.v.  SIMPLIFICATIONS: [defer_wrapping] is false, which it is unless a
    caller sets it; names, times and meta data are not modelled; arrays have at least one
    element along a reduced axis. *)
From Verif Require Export FldModel.
From Coq Require Import Arith.
Open Scope Z_scope.

(** ** numpy *)
(** broadcasting pairs the last axes; an axis of length one, or a missing one, is repeated *)
Fixpoint bshape_r (a b : list Z) : option (list Z) :=
  match a, b with
  | [], _ => Some b
  | _, [] => Some a
  | x :: a', y :: b' =>
      match (if x =? y then Some x else if x =? 1 then Some y else if y =? 1 then Some x else None), bshape_r a' b' with
      | Some z, Some r => Some (z :: r)
      | _, _ => None
      end
  end.
Definition bshape (a b : list Z) : option (list Z) := option_map (@rev Z) (bshape_r (rev a) (rev b)).
(** the index of the operand of shape [sh] used for the index [js] of the result *)
Fixpoint zero_ones (sh js : list Z) : list Z :=
  match sh, js with L :: sh', j :: js' => (if L =? 1 then 0 else j) :: zero_ones sh' js' | _, _ => [] end.
Definition bidx (sh js : list Z) : list Z := zero_ones sh (skipn (length js - length sh) js).
Definition nd_map2 {V W X} (op : V -> W -> X) (a : nd V) (b : nd W) : option (nd X) :=
  match bshape (shape a) (shape b) with
  | None => None                                                                         (* ValueError *)
  | Some sh => Some (ND sh (fun js => op (get a (bidx (shape a) js)) (get b (bidx (shape b) js))))
  end.
Definition nd_map {V X} (op : V -> X) (a : nd V) : nd X := ND (shape a) (fun js => op (get a js)).

(** an axis given as a number, from the end if it is negative *)
Definition norm_axis (n : nat) (axis : Z) : option nat :=
  if (- Z.of_nat n <=? axis) && (axis <? Z.of_nat n)
  then Some (Z.to_nat (if axis <? 0 then axis + Z.of_nat n else axis)) else None.
Definition drop_nth {X} (i : nat) (l : list X) : list X := firstn i l ++ skipn (S i) l.
(** [a.f(axis=k, keepdims=keep)] for a function [red] of the values along the axis *)
Definition nd_reduce {V X} (k : nat) (keep : bool) (red : list V -> X) (a : nd V) : nd X :=
  ND (if keep then set_nth k 1 (shape a) else drop_nth k (shape a))
     (fun js => red (map (fun i => get a (if keep then set_nth k i js else insert_at k i js))
                         (prog 0 1 (Z.to_nat (nth k (shape a) 0))))).
(** [a.f(axis=k)] for a function [sc] that returns as many values as it gets, like cumsum and argsort *)
Definition nd_scan {V X} (k : nat) (sc : list V -> list X) (dflt : X) (a : nd V) : nd X :=
  ND (shape a) (fun js => nth (Z.to_nat (nth k js 0))
                              (sc (map (fun i => get a (set_nth k i js)) (prog 0 1 (Z.to_nat (nth k (shape a) 0))))) dflt).

(** ** operators *)
Inductive operand (D W : Type) := ONum (w : W) | OArr (b : nd W) | OFld (g : fld D W).
Arguments ONum {D W} _. Arguments OArr {D W} _. Arguments OFld {D W} _.
(** [b[..., np.newaxis]] and [b[np.newaxis, ...]] *)
Definition unit_last {W} (b : nd W) : nd W := ND (shape b ++ [1]) (fun js => get b (removelast js)).
Definition unit_first {W} (b : nd W) : nd W := ND (1 :: shape b) (fun js => get b (tl js)).
(* _ow, 1909-1914, and for vector fields 2375-2389, which gives a scalar field an axis for the components *)
Definition operand_data {C V D W} (f : fld C V) (o : operand D W) : option (nd W) :=
  match o with
  | ONum w => Some (ND [] (fun _ => w))
  | OArr b => Some b
  | OFld g =>
      match load g with
      | None => None
      | Some b => Some (if f_vec f && negb (f_vec g)
                        then match layout_of f with LInter => unit_last b | LFlat => unit_first b | _ => b end
                        else b)
      end
  end.

Section ARITH.
Context {C : Type}.

(* 1916-1943, 1993-2006; [cs] are the coordinates of [f] with reflections applied (wrap's default) *)
Definition arith {V D W X} (op : V -> W -> X) (cs : list (crd C)) (f : fld C V) (o : operand D W) : @wrapped C X :=
  match load f, operand_data f o with
  | Some a, Some b => match nd_map2 op a b with None => WErr | Some r => wrap (f_vec f) cs r None end
  | _, _ => WErr
  end.
(* 1945-1962: the operand is on the left *)
Definition rarith {V D W X} (op : W -> V -> X) (cs : list (crd C)) (f : fld C V) (o : operand D W) : @wrapped C X :=
  arith (fun x y => op y x) cs f o.
(* 1984-1991 *)
Definition unary {V X} (op : V -> X) (cs : list (crd C)) (f : fld C V) : @wrapped C X :=
  match load f with Some a => wrap (f_vec f) cs (nd_map op a) None | None => WErr end.

(** ** reductions *)
(* coordinate.py 808-852 for one axis with the index 0: the first place is kept (see C46) *)
Definition keep_first (k : nat) (cs : list (crd C)) : list (crd C) :=
  match nth_error cs k with Some c => set_nth k (fst c, firstn 1 (snd c)) cs | None => cs end.
(* coordinate.py 778-806: the axis is dropped, and so are all axes with one place *)
Definition drop_axis (k : nat) (cs : list (crd C)) : list (crd C) :=
  filter (fun c => negb (Nat.eqb (length (snd c)) 1)) (drop_nth k cs).
(* field.py 1845-1862; [None]: IndexError *)
Definition reduced_crds {V} (cs : list (crd C)) (f : fld C V) (axis : Z) (keepdims : option bool) : option (list (crd C)) :=
  if (match nr_comps f with Some n => 0 <? n | None => false end) &&
     (match nr_comp f with Some k => axis =? Z.of_nat k | None => false end)
  then Some cs
  else
    match norm_axis (length cs) axis with
    | None => None
    | Some k => if match keepdims with Some b => b | None => negb (f_vec f) end
                then Some (keep_first k cs) else Some (drop_axis k cs)
    end.
(* 1827-1831, 1835-1893 *)
Definition wrap_reduced {V X} (cs : list (crd C)) (f : fld C V) (axis : Z) (keepdims : option bool) (r : nd X) : @wrapped C X :=
  if prod (shape r) =? 1 then WNum (get r (map (fun _ => 0) (shape r)))
  else match reduced_crds cs f axis keepdims with None => WErr | Some cs' => wrap (f_vec f) cs' r None end.
(* 2008-2059: any, all, argmax, argmin, max, mean, min, prod, ptp, std, sum *)
Definition reduce {V X} (red : list V -> X) (cs : list (crd C)) (f : fld C V) (axis : Z) (keepdims : option bool) : @wrapped C X :=
  match load f with
  | None => WErr
  | Some a => match norm_axis (length (shape a)) axis with
              | None => WErr                                                              (* AxisError *)
              | Some k => wrap_reduced cs f axis keepdims
                            (nd_reduce k (match keepdims with Some b => b | None => false end) red a)
              end
  end.
(* 2021-2023: argsort, which returns an array of the same shape *)
Definition scan {V X} (sc : list V -> list X) (dflt : X) (cs : list (crd C)) (f : fld C V) (axis : Z) : @wrapped C X :=
  match load f with
  | None => WErr
  | Some a => match norm_axis (length (shape a)) axis with
              | None => WErr
              | Some k => wrap_reduced cs f axis None (nd_scan k sc dflt a)
              end
  end.
End ARITH.
