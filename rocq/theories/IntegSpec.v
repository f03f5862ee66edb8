(** Specification for C13: the unit direction of a field and Runge-Kutta methods given by a Butcher
    tableau, with the order conditions over all rooted trees (Butcher). *)
From Verif Require Import IntegModel.
Open Scope R_scope.

(* unit vector of the scaled field, where it has one *)
Definition unit_dir (fld : field) (vs x : vec) : option vec :=
  match fld x with None => None | Some v => if Req_EM_T (norm (vmul vs v)) 0 then None else Some (vdiv (vmul vs v) (norm (vmul vs v))) end.
Definition speed (fld : field) (vs x : vec) : R := match fld x with None => 0 | Some v => norm (vmul vs v) end.

(** An explicit Runge-Kutta method: row i has the coefficients of the stages before stage i. *)
Fixpoint comb (cs : list R) (ks : list vec) : vec :=
  match cs, ks with c :: cs, k :: ks => vadd (vscale c k) (comb cs ks) | _, _ => VEC 0 0 0 end.
(* slopes at the stages, oldest first *)
Fixpoint stages (f : vec -> option vec) (h : R) (x : vec) (rows : list (list R)) (ks : list vec) : option (list vec) :=
  match rows with
  | [] => Some ks
  | row :: rows => match f (vadd x (vscale h (comb row ks))) with None => None | Some k => stages f h x rows (ks ++ [k]) end
  end.
Definition rk_step (f : vec -> option vec) (h : R) (x : vec) (rows : list (list R)) (b : list R) : option vec :=
  match stages f h x rows [] with None => None | Some ks => Some (vadd x (vscale h (comb b ks))) end.

(** ** order conditions *)
Inductive tree := Node (children : list tree).
Definition sum (l : list R) : R := fold_right Rplus 0 l.
Definition dot (a b : list R) : R := sum (map (fun ab => fst ab * snd ab) (combine a b)).
Fixpoint size (t : tree) : nat := match t with Node cs => S (fold_right (fun c n => (size c + n)%nat) O cs) end.
Fixpoint density (t : tree) : R := match t with Node cs => INR (size t) * fold_right (fun c p => density c * p) 1 cs end.
(* per stage: the product over the children c of sum_j a_ij (weights c)_j *)
Fixpoint weights (rows : list (list R)) (t : tree) : list R :=
  match t with Node cs => fold_right (fun c p => map (fun xy => fst xy * snd xy) (combine (map (fun row => dot row (weights rows c)) rows) p)) (map (fun _ => 1) rows) cs end.
Definition order (p : nat) (rows : list (list R)) (b : list R) : Prop :=
  forall t, (size t <= p)%nat -> dot b (weights rows t) * density t = 1.

(** the classical methods *)
Definition euler_rows : list (list R) := [[]].
Definition midpoint_rows : list (list R) := [[]; [1 / 2]].
Definition kutta_rows : list (list R) := [[]; [1 / 2]; [0; 1 / 2]; [0; 0; 1]].
Definition kutta_b : list R := [1 / 6; 1 / 3; 1 / 3; 1 / 6].
Definition fehlberg_rows : list (list R) :=
  [[]; [1 / 4]; [3 / 32; 9 / 32]; [1932 / 2197; - 7200 / 2197; 7296 / 2197]; [439 / 216; - 8; 3680 / 513; - 845 / 4104]; [- 8 / 27; 2; - 3544 / 2565; 1859 / 4104; - 11 / 40]].
Definition fehlberg_b4 : list R := [25 / 216; 0; 1408 / 2565; 2197 / 4104; - 1 / 5; 0].
Definition fehlberg_b5 : list R := [16 / 135; 0; 6656 / 12825; 28561 / 56430; - 9 / 50; 2 / 55].
