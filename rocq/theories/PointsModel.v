(** Model of the point lists of grids and seeds: viscid/coordinate.py
    [StructuredCrds.get_points] (1069-1079), [as_mesh] (1081-1092), [get_nr_points]
    (1120-1122), [iter_points] (1124-1128) and viscid/seed.py [Point], [MeshPoints],
    [Plane], [Volume] where they order points.  Coordinates are of any type [A]. *)
From Coq Require Export List Arith Lia.
Export ListNotations.

Section PTS.
Context {A : Type}.

(* np.tile(c, n) *)
Definition tile (c : list A) (n : nat) : list A := concat (repeat c n).
(* np.repeat(a, m) *)
Definition np_repeat (a : list A) (m : nat) : list A := flat_map (fun x => repeat x m) a.
(* np.prod of a list of lengths *)
Definition np_prod (l : list nat) : nat := fold_right Nat.mul 1 l.

(* coordinate.py 1069-1079, seed.py 830-837 (Volume._make_local_points): one row per axis *)
Definition get_points (crds : list (list A)) : list (list A) :=
  let shape := map (@length A) crds in
  map (fun i => np_repeat (tile (nth i crds []) (np_prod (firstn i shape))) (np_prod (skipn (S i) shape)))
      (seq 0 (length crds)).
(* coordinate.py 1120-1122 *)
Definition get_nr_points (crds : list (list A)) : nat := np_prod (map (@length A) crds).
(* coordinate.py 1124-1128, seed.py 852-854: itertools.product *)
Fixpoint iter_points (crds : list (list A)) : list (list A) :=
  match crds with
  | [] => [[]]
  | c :: r => flat_map (fun x => map (cons x) (iter_points r)) c
  end.

(* coordinate.py 1085-1092: [shape.remove(1)] until two are left; None is ValueError *)
Fixpoint remove_one (l : list nat) : option (list nat) :=
  match l with
  | [] => None
  | x :: r => if x =? 1 then Some r else option_map (cons x) (remove_one r)
  end.
Fixpoint shrink (fuel : nat) (l : list nat) : option (list nat) :=
  if length l <=? 2 then Some l
  else match fuel with
       | O => None
       | S k => match remove_one l with None => None | Some l' => shrink k l' end
       end.
(* np.reshape of each row of points to [nu, nv] (C order): row [u] holds elements
   u*nv .. u*nv+nv-1.  Raises ValueError when the sizes differ. *)
Fixpoint rows (nu nv : nat) (l : list A) : list (list A) :=
  match nu with O => [] | S k => firstn nv l :: rows k nv (skipn nv l) end.
Definition reshape2 (nu nv : nat) (l : list A) : option (list (list A)) :=
  if length l =? nu * nv then Some (rows nu nv l) else None.
Fixpoint all_some {B} (l : list (option B)) : option (list B) :=
  match l with
  | [] => Some []
  | Some x :: r => option_map (cons x) (all_some r)
  | None :: _ => None
  end.
(* the target is [3] + shape: other numbers of rows, or fewer than two axes, are not a
   3 x nu x nv mesh and give None here *)
Definition as_mesh (crds : list (list A)) : option (list (list (list A))) :=
  match shrink (length crds) (map (@length A) crds) with
  | Some [nu; nv] => if length crds =? 3 then all_some (map (reshape2 nu nv) (get_points crds)) else None
  | _ => None
  end.

(* seed.py 319-335 for two-dimensional input: [arr] is a list of rows, all of one length *)
Definition transpose (arr : list (list A)) (ncol : nat) : list (list A) :=
  map (fun j => flat_map (fun r => match nth_error r j with Some x => [x] | None => [] end) arr) (seq 0 ncol).
Definition point_points (arr : list (list A)) (ncol : nat) : option (list (list A)) :=
  if length arr =? 3 then Some arr
  else if ncol =? 3 then Some (transpose arr ncol)
  else None.
End PTS.

(* seed.py 666-672 (Plane._make_local_points): rows l, m and n = [0.0] *)
Definition plane_points {A} (zero : A) (l m : list A) : list (list A) :=
  [np_repeat l (length m); tile m (length l); repeat zero (length l * length m)].
