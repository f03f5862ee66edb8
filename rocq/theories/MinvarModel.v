(** Model of viscid/calculator/minvar_tools.py: minimum variance analysis.  Numbers are reals:
    rounding is not modelled; a value that is not finite is [None]. *)
From Verif Require Export R3.
From Coq Require Export List.
Export ListNotations.
Open Scope R_scope.

(* a row of a float array of shape (n, 3) *)
Definition row := (option R * option R * option R)%type.
(* 52, 59: rows with three finite values *)
Definition finite (r : row) : option vec :=
  match r with (Some a, Some b, Some c) => Some (VEC a b c) | _ => None end.
Definition masked (arr : list row) : list vec :=
  flat_map (fun r => match finite r with Some v => [v] | None => [] end) arr.
(* np.mean *)
Definition mean (l : list R) : R := fold_right Rplus 0 l / INR (length l).
(* 63-65 *)
Definition comp (i : nat) (v : vec) : R := match i with 0%nat => v0 v | 1%nat => v1 v | _ => v2 v end.
Definition cov_ij (arr : list vec) (i j : nat) : R :=
  mean (map (fun v => comp i v * comp j v) arr) - mean (map (comp i) arr) * mean (map (comp j) arr).
(* 60-66: the lower triangle is computed and copied *)
Definition cov (arr : list vec) : mat :=
  let c := cov_ij arr in
  MAT (c 0 0)%nat (c 1 0)%nat (c 2 0)%nat (c 1 0)%nat (c 1 1)%nat (c 2 1)%nat (c 2 0)%nat (c 2 1)%nat (c 2 2)%nat.

(* 69: np.argsort of three keys (the order of equal keys is not specified; here they keep theirs) *)
Fixpoint insert {A} (key : A -> R) (a : A) (l : list A) : list A :=
  match l with
  | [] => [a]
  | b :: l' => if Rle_dec (key a) (key b) then a :: l else b :: insert key a l'
  end.
Definition sort {A} (key : A -> R) (l : list A) : list A := fold_right (insert key) [] l.
(* 40-81; [eig] is np.linalg.eig, eigenvalues with their eigenvectors; None is nan everywhere.  The warning is left out *)
Definition minvar_series (eig : mat -> list (R * vec)) (arr : list row) : option (list (R * vec)) :=
  let arr := masked arr in
  if Nat.ltb (length arr) 3 then None
  else Some (sort (fun p => Rabs (fst p)) (eig (cov arr))).
(* 107-111: the ends of the line through p0; None if path_dir is zero (nan) *)
Definition around (p0 : vec) (l : R) (path_dir : vec) : option (vec * vec) :=
  if Req_EM_T (norm path_dir) 0 then None
  else let d := vdiv path_dir (norm path_dir) in
       Some (vsub p0 (vscale (1 / 2 * l) d), vadd p0 (vscale (1 / 2 * l) d)).

(* np.allclose: |a - b| <= 1e-8 + 1e-5 |b| for each component *)
Definition close1 (a b : R) : bool := if Rle_dec (Rabs (a - b)) (1 / 10 ^ 8 + 1 / 10 ^ 5 * Rabs b) then true else false.
Definition allclose (a b : vec) : bool := (close1 (v0 a) (v0 b) && close1 (v1 a) (v1 b) && close1 (v2 a) (v2 b))%bool.
(* v / np.linalg.norm(v); None is nan *)
Definition unit (v : vec) : option vec := if Req_EM_T (norm v) 0 then None else Some (vdiv v (norm v)).
(* 136-143: l_basis = None cannot be reshaped: ValueError; a comparison with nan is false *)
Definition pick_l (n_dir evec_max : vec) (l_basis : option vec) : vec :=
  match l_basis with
  | None => evec_max
  | Some b => match unit b with
              | None => b
              | Some u => if allclose n_dir u then evec_max else b
              end
  end.
Record lmn := LMN { dir_l : vec; dir_m : vec; dir_n : vec }.
(* 114-149; None: some direction is nan *)
Definition lmn_directions (evec_min evec_max : vec) (l_basis : option vec) : option lmn :=
  match unit evec_min with
  | None => None
  | Some n_dir =>
      let b := pick_l n_dir evec_max l_basis in
      match unit (vsub b (vscale (vdot b n_dir) n_dir)) with
      | None => None
      | Some l_dir => Some (LMN l_dir (cross n_dir l_dir) n_dir)
      end
  end.
(* 151-168, with the sampled field as argument *)
Definition find_minvar_lmn (eig : mat -> list (R * vec)) (arr : list row) (l_basis : option vec) : option lmn :=
  match minvar_series eig arr with
  | Some [(_, e0); _; (_, e2)] => lmn_directions e0 e2 l_basis
  | _ => None
  end.
