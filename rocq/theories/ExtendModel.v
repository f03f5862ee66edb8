(** Model of viscid/calculator/calc.py [extend_boundaries_ndarr] (641-731) and the
    coordinates made by [extend_boundaries] (733-811).

    Values are rationals: rounding of the linear extrapolation is not modelled.  Axis
    numbers and numbers of layers are not negative. *)
From Verif Require Export NdIndex.
From Coq Require Export QArith.
Open Scope Z_scope.

(** an index vector with entry [k] replaced *)
Fixpoint put (k : nat) (x : Z) (js : list Z) : list Z :=
  match k, js with
  | _, [] => []
  | O, _ :: r => x :: r
  | S k', j :: r => j :: put k' x r
  end.

Inductive axes_arg := AxAll | AxList (l : list nat).

Section EXT.
Variables (nl nh : nat) (dx : Q).

(* [v[dest] = e] where the destination is the single place [d] along axis [ax] *)
Definition assign (ax : nat) (d : Z) (e : list Z -> Q) (v : list Z -> Q) : list Z -> Q :=
  fun js => if nth ax js 0 =? d then e js else v js.

(* calc.py 692-700 and 709-717: constant steps *)
Definition step_lo (ax : nat) (v : list Z -> Q) (j : nat) : list Z -> Q :=
  assign ax (Z.of_nat nl - 1 - Z.of_nat j) (fun js => v (put ax (Z.of_nat nl - Z.of_nat j) js) - dx)%Q v.
Definition step_hi (ax : nat) (ni : Z) (v : list Z -> Q) (j : nat) : list Z -> Q :=
  assign ax (ni + Z.of_nat j) (fun js => v (put ax (ni - 1 + Z.of_nat j) js) + dx)%Q v.
(* calc.py 701-708 *)
Definition hold (ax : nat) (ni : Z) (v : list Z -> Q) : list Z -> Q :=
  let v := if (0 <? nl)%nat then fun js => if nth ax js 0 <? Z.of_nat nl then v (put ax (Z.of_nat nl) js) else v js else v in
  if (0 <? nh)%nat then fun js => if ni <=? nth ax js 0 then v (put ax (ni - 1) js) else v js else v.
(* calc.py 718-728 *)
Definition line_lo (ax : nat) (v : list Z -> Q) (j : nat) : list Z -> Q :=
  assign ax (Z.of_nat nl - Z.of_nat j - 1)
    (fun js => 2 * v (put ax (Z.of_nat nl - Z.of_nat j) js) - v (put ax (Z.of_nat nl - Z.of_nat j + 1) js))%Q v.
Definition line_hi (ax : nat) (ni : Z) (v : list Z -> Q) (j : nat) : list Z -> Q :=
  assign ax (ni + Z.of_nat j)
    (fun js => 2 * v (put ax (ni + Z.of_nat j - 1) js) - v (put ax (ni + Z.of_nat j - 2) js))%Q v.

(* calc.py 685-731: one pass of the loop over the axes; [L] is [arr.shape[axi]] *)
Definition extend_axis (order : Z) (ax : nat) (L : Z) (v : list Z -> Q) : option (list Z -> Q) :=
  let ni := L + Z.of_nat nl in
  let steps := fold_left (step_hi ax ni) (seq 0 nh) (fold_left (step_lo ax) (seq 0 nl) v) in
  if (L <? 2) && negb (Qeq_bool dx 0) then Some steps
  else if order =? 0 then Some (hold ax ni v)
  else if L <? 2 then Some steps
  else if order =? 1 then Some (fold_left (line_hi ax ni) (seq 0 nh) (fold_left (line_lo ax) (seq 0 nl) v))
  else None.

Fixpoint extend_loop (order : Z) (shape : list Z) (axes : list nat) (v : list Z -> Q) : option (list Z -> Q) :=
  match axes with
  | [] => Some v
  | ax :: r =>
      match nth_error shape ax with                                             (* shape[axi]: IndexError *)
      | None => None
      | Some L => match extend_axis order ax L v with
                  | None => None
                  | Some v' => extend_loop order shape r v'
                  end
      end
  end.

Definition mem (k : nat) (l : list nat) : bool := existsb (Nat.eqb k) l.
Fixpoint target_from (k : nat) (axes : list nat) (shape : list Z) : list Z :=   (* 668-669 *)
  match shape with
  | [] => []
  | s :: r => (if mem k axes then s + Z.of_nat nl + Z.of_nat nh else s) :: target_from (S k) axes r
  end.
(* 671-683: zeros with [arr] in the middle *)
Fixpoint inner_from (k : nat) (axes : list nat) (shape js : list Z) : option (list Z) :=
  match shape, js with
  | s :: r, j :: js' =>
      let i := if mem k axes then j - Z.of_nat nl else j in
      if (0 <=? i) && (i <? s) then option_map (cons i) (inner_from (S k) axes r js') else None
  | _, _ => Some []
  end.
Definition embed (axes : list nat) (arr : nd Q) : list Z -> Q :=
  fun js => match inner_from 0 axes (shape arr) js with Some is => get arr is | None => 0%Q end.

(* 641-731; 665-666 shift the axes after the component axis.  The default axes='all' is a
   string: [ax < nr_comp] or [i in 'all'] of an int, or
   [shape['a']], raises TypeError *)
Definition extend_boundaries_ndarr (arr : nd Q) (axes : axes_arg) (nr_comp : option nat) (order : Z) : option (nd Q) :=
  match axes with
  | AxAll => None
  | AxList axes =>
      let axes := match nr_comp with None => axes | Some k => map (fun ax => if (ax <? k)%nat then ax else S ax) axes end in
      match extend_loop order (shape arr) axes (embed axes arr) with
      | None => None
      | Some v => Some (ND (target_from 0 axes (shape arr)) v)
      end
  end.
End EXT.

(** coordinates of one axis, calc.py 787-804: nodes and cell centres, each extended *)
Definition extend_crds (nl nh : nat) (dx : Q) (order : Z) (nc cc : nd Q) : option (nd Q * nd Q) :=
  match extend_boundaries_ndarr nl nh dx nc (AxList [0%nat]) None order,
        extend_boundaries_ndarr nl nh dx cc (AxList [0%nat]) None order with
  | Some a, Some b => Some (a, b)
  | _, _ => None
  end.
