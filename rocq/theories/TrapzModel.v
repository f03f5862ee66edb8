(** Model of [trapz] and [cumtrapz], viscid/field.py 2061-2143, without fudge factors.  Numbers are
    reals: rounding is not modelled.  An axis given by its name is an index (2074-2076). *)
From Verif Require Export ArithModel.
From Coq Require Import Reals Arith.
Open Scope Z_scope.

Fixpoint diffs (l : list R) : list R :=                                                  (* np.diff *)
  match l with x :: ((y :: _) as r) => (y - x)%R :: diffs r | _ => [] end.
Fixpoint sums (l : list R) : list R :=                                                   (* y[1:] + y[:-1] *)
  match l with x :: ((y :: _) as r) => (y + x)%R :: sums r | _ => [] end.
Definition rsum (l : list R) : R := fold_left Rplus l 0%R.
Fixpoint map2 {A B X} (f : A -> B -> X) (a : list A) (b : list B) : list X :=
  match a, b with x :: a', y :: b' => f x y :: map2 f a' b' | _, _ => [] end.
(** one axis broadcast to the length [n] *)
Definition stretch (n : nat) (l : list R) : list R := match l with [x] => repeat x n | _ => l end.

(** np.trapz for the values [ys] along the axis: (d * (y[1:] + y[:-1]) / 2.0).sum() *)
Definition trap (xs ys : list R) : R :=
  let d := diffs xs in let s := sums ys in
  let n := if (length d =? 1)%nat then length s else length d in
  rsum (map (fun t => (t / 2)%R) (map2 Rmult (stretch n d) (stretch n s))).
Definition fits (nx ny : nat) : bool :=                    (* the lengths nx - 1 and ny - 1 broadcast *)
  ((nx - 1 =? ny - 1) || (nx - 1 =? 1) || (ny - 1 =? 1))%nat%bool.
Definition nd_trapz (xs : list R) (k : nat) (a : nd R) : option (nd R) :=
  if fits (length xs) (Z.to_nat (nth k (shape a) 0)) then Some (nd_reduce k false (trap xs) a) else None.

(** scipy.integrate.cumtrapz: np.cumsum(d * (y[1:] + y[:-1]) / 2.0) with [initial] put before it *)
Fixpoint cumsum_from (s : R) (l : list R) : list R :=
  match l with [] => [] | x :: r => (s + x)%R :: cumsum_from (s + x)%R r end.
Definition cumtrap (init : R) (xs ys : list R) : list R :=
  init :: cumsum_from 0%R (map (fun t => (t / 2)%R) (map2 Rmult (diffs xs) (sums ys))).
Definition nd_cumtrapz (init : R) (xs : list R) (k : nat) (a : nd R) : option (nd R) :=
  if (length xs =? Z.to_nat (nth k (shape a) 0%Z))%nat then Some (nd_scan k (cumtrap init xs) 0%R a) else None.

(** a field, a number, an array of the components, or an exception *)
Inductive integral := IFld (f : fld R R) | INum (v : R) | IArr (r : nd R) | IErr.

Section TRAPZ.
Implicit Types (f : fld R R) (cs : list (crd R)).

(* 2079-2087 *)
Definition fld_axis f (axis : Z) : Z :=
  match nr_comp f with
  | None => axis
  | Some k => if axis <? Z.of_nat k then axis else axis + 1
  end.
(* 2078, 2094-2098: the slice at index 0 of the axis gives the type and the coordinates of the result (FldModel.wrap,
   reached through _finalize_slice 1250-1277); a number if it has one element, on which empty_like fails *)
Definition trapz cs f (axis : Z) : integral :=
  match load f, norm_axis (length cs) axis with
  | Some a, Some kc =>
      match nth_error cs kc, norm_axis (length (shape a)) (fld_axis f axis) with
      | Some ax, Some k =>
          match nd_trapz (snd ax) k a with
          | None => IErr
          | Some r =>
              if (1 <? length cs)%nat then
                let ka := match nr_comp f with Some O => S kc | _ => kc end in
                match wrap (f_vec f) (drop_nth kc cs) (nd_reduce ka false (fun vs => nth 0 vs 0%R) a) None with
                | WFld s => IFld (F (f_vec s) (f_crds s) (map (fun _ => false) (f_crds s)) (SArr r) false None)
                | _ => IErr
                end
              else if prod (shape r) =? 1 then INum (get r (map (fun _ => 0) (shape r)))
              else IArr r
          end
      | _, _ => IErr
      end
  | _, _ => IErr
  end.
(* 2116-2143 *)
Definition cumtrapz (init : R) cs f (axis : Z) : integral :=
  match load f, norm_axis (length cs) axis with
  | Some a, Some kc =>
      match nth_error cs kc, norm_axis (length (shape a)) (fld_axis f axis) with
      | Some ax, Some k =>
          match nd_cumtrapz init (snd ax) k a with
          | None => IErr
          | Some r => IFld (F (f_vec f) cs (map (fun _ => false) cs) (SArr r) false None)
          end
      | _, _ => IErr
      end
  | _, _ => IErr
  end.
End TRAPZ.
