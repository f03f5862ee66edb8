(** Model of [convective_deriv], viscid/calculator/calc.py 326-351: (a . grad) b of fields with three axes.  The gradient is [grad] of DerivModel.v.

    SIMPLIFICATIONS: arrays that are multiplied have one shape (numpy would also repeat axes of one place); names and times of the result are left out. *)
From Verif Require Export DerivModel.
Open Scope Z_scope.

(* b[jcmp]; a scalar field with the grid of the vector *)
Definition comp_of (f : fld) (v : nd Q) : fld := FLD (cell f) (ax f) [v].
(* a['x=1:-1, y=1:-1, z=1:-1'], 337 *)
Definition inner (f : fld) : fld := FLD (cell f) (fun k => trim (ax f k)) (map (fun v => cut v [1; 1; 1]) (comps f)).
Fixpoint same_shape (a b : list Z) : bool := match a, b with [], [] => true | x :: a', y :: b' => (x =? y) && same_shape a' b' | _, _ => false end.
(* dest += a_i * d_i, 346-348: the sum over i of a_i times the derivative along i, [g]: the three derivatives *)
Definition along (a g : list (nd Q)) : option (nd Q) :=
  match a, g with
  | [ax; ay; az], [gx; gy; gz] =>
      if same_shape (shape ax) (shape gx)
      then Some (ND (shape gx) (fun js => 0 + get ax js * get gx js + get ay js * get gy js + get az js * get gz js)%Q)
      else None
  | _, _ => None
  end.
Fixpoint each_comp (b : fld) (a : list (nd Q)) (vs : list (nd Q)) : option (list (nd Q)) :=
  match vs with
  | [] => Some []
  | v :: r => match grad false (comp_of b v) with
              | Some g => match along a (comps g), each_comp b a r with Some d, Some ds => Some (d :: ds) | _, _ => None end
              | None => None
              end
  end.
(* 326-351 *)
Definition convective_deriv (a : fld) (b : option fld) (bnd : bool) : option fld :=
  let b0 := match b with Some b => b | None => a end in
  match prep bnd b0 with
  | Some b1 =>
      let a1 := if bnd then a else inner a in
      match comps b1 with
      | [v] => match each_comp b1 (comps a1) [v] with Some c => Some (FLD (cell a1) (ax a1) c) | None => None end      (* 350: dot(a, grad b), a field like a *)
      | [_; _; _] =>
          match each_comp b1 (comps a1) (comps b1) with
          | Some c => if same_shape [len (centres (ax a1 0)); len (centres (ax a1 1)); len (centres (ax a1 2))] (match c with d :: _ => shape d | [] => [] end)
                      then Some (FLD true (ax a1) c)                                       (* 345: viscid.zeros is cell centred *)
                      else None
          | None => None
          end
      | _ => None
      end
  | None => None
  end.
