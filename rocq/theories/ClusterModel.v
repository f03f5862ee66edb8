(** Model of viscid/calculator/cluster.py.  Coordinates are rationals.
    Distances between index pairs are kept squared, so that the thresholds 1.5
    and 1.1 become "at most 2" and "at most 1" on squared distances.
    SIMPLIFICATION: dists is a float32 array in the code; the comparison of a
    wrapped distance with an equal unwrapped one can then go either way. *)
From Coq Require Export List ZArith QArith Qround Lia Bool Permutation.
Export ListNotations.
Open Scope Z_scope.

(** One cluster: the entries of clusters, cli and clx at the same position
    (three parallel lists in the code, 90-92). *)
Record cluster := mkcl {
  c_mem : list nat;            (* clusters[k] *)
  c_ij : list (Z * Z);         (* cli[k], as pairs *)
  c_xy : list (Q * Q) }.       (* clx[k], as pairs *)

Definition d2 (p q : Z * Z) : Z :=
  (fst p - fst q) * (fst p - fst q) + (snd p - snd q) * (snd p - snd q).

(** np.min over the points of a cluster, cluster.py 22-23, 25-26; None is the
    error numpy raises on an empty list. *)
Fixpoint min_d2 (pts : list (Z * Z)) (p : Z * Z) : option Z :=
  match pts with
  | [] => None
  | q :: rest => match min_d2 rest p with
                 | None => Some (d2 q p)
                 | Some m => Some (Z.min (d2 q p) m)
                 end
  end.

(** cluster.py 13-33, distance_to_clusters, for one cluster: the distance and
    the sign of the wrap that gave it. *)
Definition distance_to_cluster (p : Z * Z) (alt : list (Z * Z)) (c : cluster) : option (Z * (Z * Z)) :=
  match min_d2 (c_ij c) p with
  | None => None
  | Some d =>
      Some (let '(d, w) :=
              fold_left (fun '(d, w) a =>
                 match min_d2 (c_ij c) (fst p + fst a, snd p + snd a) with
                 | Some nd => if nd <? d then (nd, a) else (d, w)              (* 27-29 *)
                 | None => (d, w)
                 end) alt (d, (0, 0)) in
            (d, (Z.sgn (fst w), Z.sgn (snd w))))                               (* 31 *)
  end.

Fixpoint all_some {A} (l : list (option A)) : option (list A) :=
  match l with
  | [] => Some []
  | None :: _ => None
  | Some a :: l => option_map (cons a) (all_some l)
  end.

(** dists < thresh, cluster.py 63 and 100 (on squared distances). *)
Definition touches (diagonals : bool) (d : Z) : bool := d <=? (if diagonals then 2 else 1).

(** np.flatnonzero(touching) with the wrap of each, cluster.py 100, 109. *)
Fixpoint flatnonzero (diagonals : bool) (k : nat) (dw : list (Z * (Z * Z))) : list (nat * (Z * Z)) :=
  match dw with
  | [] => []
  | (d, w) :: rest => (if touches diagonals d then [(k, w)] else []) ++ flatnonzero diagonals (S k) rest
  end.

(** icli - wraps*N and iclx - wraps*L, cluster.py 114-115. *)
Definition unshift (N : Z * Z) (L : Q * Q) (w : Z * Z) (c : cluster) : cluster :=
  mkcl (c_mem c)
       (map (fun '(i, j) => (i - fst w * fst N, j - snd w * snd N)) (c_ij c))
       (map (fun '(x, y) => (x - inject_Z (fst w) * fst L, y - inject_Z (snd w) * snd L)%Q) (c_xy c)).

(** clusters[-1] += ..., cluster.py 110, 116-117. *)
Definition absorb (last c : cluster) : cluster :=
  mkcl (c_mem last ++ c_mem c) (c_ij last ++ c_ij c) (c_xy last ++ c_xy c).

(** list.pop(k): the element and the rest; None is IndexError. *)
Definition pop (k : nat) (cls : list cluster) : option (cluster * list cluster) :=
  match nth_error cls k with
  | None => None
  | Some c => Some (c, firstn k cls ++ skipn (S k) cls)
  end.

(** The loop `for k in reversed(np.flatnonzero(touching))`, cluster.py 109-117;
    [last] is the list element at -1, [cls] the ones before it. *)
Fixpoint merge (N : Z * Z) (L : Q * Q) (ks : list (nat * (Z * Z))) (cls : list cluster) (last : cluster)
  : option (list cluster) :=
  match ks with
  | [] => Some (cls ++ [last])
  | (k, w) :: ks =>
      match pop k cls with
      | None => None
      | Some (c, rest) => merge N L ks rest (absorb last (unshift N L w c))
      end
  end.

(** cluster.py 118-124: append the point to cluster k. *)
Fixpoint append_to (k : nat) (i : nat) (p : Z * Z) (q : Q * Q) (cls : list cluster) : list cluster :=
  match cls, k with
  | [], _ => []
  | c :: cls, O => mkcl (c_mem c ++ [i]) (c_ij c ++ [p]) (c_xy c ++ [q]) :: cls
  | c :: cls, S k => c :: append_to k i p q cls
  end.

(** x[ix]: None is IndexError (negative indices are outside the model). *)
Definition crd (xs : list Q) (i : Z) : option Q := if 0 <=? i then nth_error xs (Z.to_nat i) else None.

(** One turn of the loop at cluster.py 97-128. *)
Definition cluster_step (diagonals : bool) (alt : list (Z * Z)) (N : Z * Z) (L : Q * Q)
           (xs ys : list Q) (cls : list cluster) (i : nat) (p : Z * Z) : option (list cluster) :=
  match all_some (map (distance_to_cluster p alt) cls), crd xs (fst p), crd ys (snd p) with
  | Some dw, Some px, Some py =>
      match flatnonzero diagonals 0 dw with
      | [] => Some (cls ++ [mkcl [i] [p] [(px, py)]])                          (* 125-128 *)
      | [(k, w)] =>                                                            (* 118-124 *)
          Some (append_to k i (fst p + fst w * fst N, snd p + snd w * snd N)
                  (px + inject_Z (fst w) * fst L, py + inject_Z (snd w) * snd L)%Q cls)
      | ks => merge N L (rev ks) cls (mkcl [i] [p] [(px, py)])                 (* 103-117 *)
      end
  | _, _, _ => None
  end.

Fixpoint cluster_loop (diagonals : bool) (alt : list (Z * Z)) (N : Z * Z) (L : Q * Q)
         (xs ys : list Q) (cls : list cluster) (i : nat) (inds : list (Z * Z)) : option (list cluster) :=
  match inds with
  | [] => Some cls
  | p :: rest =>
      match cluster_step diagonals alt N L xs ys cls i p with
      | None => None
      | Some cls => cluster_loop diagonals alt N L xs ys cls (S i) rest
      end
  end.

(** The periodic argument for one axis: False (or "0"), True, or '+'. *)
Inductive per := PNo | PYes | PPlus.
Definition is_per (p : per) : bool := match p with PNo => false | _ => true end.

(** cluster.py 66-79: pdN and pdL of one axis. *)
Definition pdN (p : per) (xs : list Q) : Z := if is_per p then Z.of_nat (length xs) else 0.
Definition pdL (p : per) (xs : list Q) : Q :=
  match p with
  | PNo => 0
  | PYes => last xs 0 - hd 0 xs
  | PPlus => last xs 0 - hd 0 xs + (last xs 0 - last (removelast xs) 0)
  end%Q.

(** cluster.py 80-86. *)
Definition alts (p0 p1 : per) (N0 N1 : Z) : list (Z * Z) :=
  (if is_per p0 then [(- N0, 0); (N0, 0)] else []) ++
  (if is_per p1 then [(0, - N1); (0, N1)] else []) ++
  (if is_per p0 && is_per p1 then [(- N0, - N1); (N0, N1)] else []).

(** np.average of a cluster's coordinates along axis 1, cluster.py 132. *)
Definition avg (l : list Q) : Q := (fold_right Qplus 0 l / inject_Z (Z.of_nat (length l)))%Q.

(** cluster.py 133: pts -= pdL * floor((pts - xl) / (xh - xl)); None is NaN. *)
Definition unwrap (L : Q) (xs : list Q) (v : Q) : option Q :=
  let xl := hd 0%Q xs in let xh := last xs 0%Q in
  if Qeq_bool (xh - xl) 0 then None
  else Some (v - L * inject_Z (Qfloor ((v - xl) / (xh - xl))))%Q.

(** find_clusters, cluster.py 35-134, with multiple=True: the list of cluster
    averages; None is an exception. *)
Definition find_clusters (diagonals : bool) (p0 p1 : per) (xs ys : list Q) (inds : list (Z * Z))
  : option (list (option Q * option Q)) :=
  let N0 := pdN p0 xs in let N1 := pdN p1 ys in
  let L0 := pdL p0 xs in let L1 := pdL p1 ys in
  match cluster_loop diagonals (alts p0 p1 N0 N1) (N0, N1) (L0, L1) xs ys [] 0 inds with
  | None => None
  | Some cls => Some (map (fun c => (unwrap L0 xs (avg (map fst (c_xy c))),
                                     unwrap L1 ys (avg (map snd (c_xy c))))) cls)
  end.

(** find_clusters with multiple=False, cluster.py 129-130: inds has one row per
    point, so inds[0, :] is the first point and inds[1, :] the second. *)
Definition find_one_cluster (xs ys : list Q) (inds : list (Z * Z)) : option (Q * Q) :=
  match inds with
  | p :: q :: _ =>
      match crd xs (fst p), crd xs (snd p), crd ys (fst q), crd ys (snd q) with
      | Some a, Some b, Some c, Some d => Some (avg [a; b], avg [c; d])
      | _, _, _, _ => None
      end
  | _ => None
  end.
