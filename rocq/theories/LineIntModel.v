(** Model of viscid/calculator/calc.py [integrate_along_lines] (454-501) with mask_func=None,
    [project_along_line] (416-435), and the derivatives at a point (503-639).

    Numbers are reals: rounding is not modelled.  Interpolation is a function from points to
    values, applied to every vertex (modelled in InterpModel).  Arrays of one dimension are lists;
    None as a value is nan, None as a result is an exception. *)
From Verif Require Export PySlice.
From Coq Require Export Reals.
Open Scope R_scope.

Record vec := VEC { v0 : R; v1 : R; v2 : R }.
Definition vadd (a b : vec) : vec := VEC (v0 a + v0 b) (v1 a + v1 b) (v2 a + v2 b).
Definition vsub (a b : vec) : vec := VEC (v0 a - v0 b) (v1 a - v1 b) (v2 a - v2 b).
Definition vscale (c : R) (a : vec) : vec := VEC (c * v0 a) (c * v1 a) (c * v2 a).
Definition vmul (a b : vec) : vec := VEC (v0 a * v0 b) (v1 a * v1 b) (v2 a * v2 b).
Definition vsum (a : vec) : R := v0 a + v1 a + v2 a.
(* np.linalg.norm *)
Definition norm (a : vec) : R := sqrt (v0 a * v0 a + v1 a * v1 a + v2 a * v2 a).

(* numpy broadcasting of two arrays of one dimension *)
Definition bcast {A B C} (o : A -> B -> C) (a : list A) (b : list B) : option (list C) :=
  if (length a =? length b)%nat then Some (map (fun p => o (fst p) (snd p)) (combine a b))
  else match a, b with
       | [x], _ => Some (map (o x) b)
       | _, [y] => Some (map (fun x => o x y) a)
       | _, _ => None
       end.
Definition slice {A} (l : list A) (i j : Z) : list A := match getslice l (PS (Some i) (Some j) None) with Some y => y | None => [] end.
(* l[1:] and l[:-1] *)
Definition from1 {A} (l : list A) : list A := match getslice l (PS (Some 1%Z) None None) with Some y => y | None => [] end.
Definition upto1 {A} (l : list A) : list A := match getslice l (PS None (Some (-1)%Z) None) with Some y => y | None => [] end.

Fixpoint rsum (l : list R) : R := match l with [] => 0 | x :: r => x + rsum r end.
(* sums with nan *)
Fixpoint nsum (l : list (option R)) : option R :=
  match l with
  | [] => Some 0
  | Some x :: r => option_map (Rplus x) (nsum r)
  | None :: _ => None
  end.
Definition lift2 {A B C} (o : A -> B -> C) (a : option A) (b : option B) : option C :=
  match a, b with Some x, Some y => Some (o x y) | _, _ => None end.

(* lines[i][:, 1:] - lines[i][:, :-1] *)
Definition segments (line : list vec) : option (list vec) := bcast vsub (from1 line) (upto1 line).
(* dsvec / norm: 0 / 0 is nan *)
Definition unit (d : vec) : option vec := if Req_EM_T (norm d) 0 then None else Some (vscale (/ norm d) d).

Inductive on_verts := Scalars (l : list R) | Vectors (l : list vec).
Inductive reduct := Dot | Mag | Other.

(* 473-499: the loop body *)
Definition one_line (fld : on_verts) (red : reduct) (line : list vec) (start stop : Z) : option (option R) :=
  match segments line with
  | None => None
  | Some dsv =>
      let ds := map norm dsv in
      let values : option (list (option R)) :=
        match fld with
        | Vectors l =>
            match red with
            | Dot =>
                match bcast vadd (slice l start (stop - 1)) (slice l (start + 1) stop) with
                | Some s => bcast (fun v u => option_map (fun u => vsum (vmul (vscale (1 / 2) v) u)) u) s (map unit dsv)
                | None => None
                end
            | Mag =>
                let mag := map norm (slice l start stop) in
                option_map (map (fun x => Some (1 / 2 * x))) (bcast Rplus (slice mag start (stop - 1)) (slice mag (start + 1) stop))
            | Other => None
            end
        | Scalars l => option_map (map (fun x => Some (1 / 2 * x))) (bcast Rplus (slice l start (stop - 1)) (slice l (start + 1) stop))
        end in
      match values with
      | Some values => option_map nsum (bcast (fun v d => option_map (fun v => v * d) v) values ds)
      | None => None
      end
  end.
Fixpoint loop (fld : on_verts) (red : reduct) (lines : list (list vec)) (start : Z) : option (list (option R)) :=
  match lines with
  | [] => Some []
  | line :: r =>
      let stop := (start + Z.of_nat (length line))%Z in
      match one_line fld red line start stop, loop fld red r stop with
      | Some x, Some y => Some (x :: y)
      | _, _ => None
      end
  end.
(* [interp] gives a scalar or a vector *)
Inductive fieldfn := ScalarFn (f : vec -> R) | VectorFn (f : vec -> vec).
Definition interp (f : fieldfn) (verts : list vec) : on_verts :=
  match f with ScalarFn f => Scalars (map f verts) | VectorFn f => Vectors (map f verts) end.
Definition integrate_along_lines (lines : list (list vec)) (f : fieldfn) (red : reduct) : option (list (option R)) :=
  match lines with
  | [] => None                                                       (* np.concatenate of nothing: ValueError *)
  | _ => loop (interp f (concat lines)) red lines 0
  end.

(** ** projection onto a line *)
(* 429-435: line[:, 2:] - line[:, :-2], first repeated, and [:, -2:-1] at the end *)
Definition project_along_line (line : list vec) (f : vec -> vec) : option (list (option R)) :=
  let from2 := match getslice line (PS (Some 2%Z) None None) with Some y => y | None => [] end in
  let upto2 := match getslice line (PS None (Some (-2)%Z) None) with Some y => y | None => [] end in
  match bcast vsub from2 upto2 with
  | None => None
  | Some d =>
      let d' := slice d 0 1 ++ d ++ slice d (-2) (-1) in
      bcast (fun v u => option_map (fun u => vsum (vmul v u)) u) (map f line) (map unit d')
  end.

(** ** derivatives at a point *)
(* 503-543: the field at the six points around X; [d] are the distances, given or of the grid *)
Definition shift (k : nat) (e : R) (p : vec) : vec :=
  match k with 0%nat => VEC (v0 p + e) (v1 p) (v2 p) | 1%nat => VEC (v0 p) (v1 p + e) (v2 p) | _ => VEC (v0 p) (v1 p) (v2 p + e) end.
Definition comp (k : nat) (p : vec) : R := match k with 0%nat => v0 p | 1%nat => v1 p | _ => v2 p end.
(* As[2*k + (1 or 0), c] *)
Definition As (B : vec -> vec) (p d : vec) (k : nat) (hi : bool) (c : nat) : R :=
  comp c (B (shift k (if hi then comp k d else - comp k d) p)).
Definition dq (B : vec -> vec) (p d : vec) (k c kd : nat) : R := (As B p d k true c - As B p d k false c) / (2 * comp kd d).
(* 545-568 *)
Definition jacobian_at_point (B : vec -> vec) (p d : vec) (i k : nat) : R := dq B p d k i k.
(* 616-622 *)
Definition div_at_point (B : vec -> vec) (p d : vec) : R := 0 + dq B p d 0 0 0 + dq B p d 1 1 1 + dq B p d 2 2 2.
(* 624-639 *)
Definition curl_at_point (B : vec -> vec) (p d : vec) : vec :=
  VEC (dq B p d 1 2 1 - dq B p d 0 1 2)
      (dq B p d 0 0 2 - dq B p d 2 2 0)
      (dq B p d 2 1 0 - dq B p d 1 0 1).
