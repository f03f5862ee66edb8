(** Model of the interpolation kernels in viscid/cython/cycalc.pyx and of the
    AMR patch lookup in viscid/cython/cyamr.pyx.  Reals are rationals: the
    kernels only use + - * / floor and comparisons, so the model is exact for
    real arithmetic; floating point rounding is not modelled. *)
From Coq Require Import List Arith ZArith QArith Qround Qabs Bool Lia.
From Verif Require Import StreamModel.
Import ListNotations.
Local Open Scope Q_scope.

(** cyfield.pyx 21-114: what a prepared patch holds.
    [nn d] is [fld.n[d]] (line 84), the number of values along axis [d];
    [crd m d i] is [fld.crds[m, d, i]] for [i < n[d]] (lines 62-65);
    [unif] is [fld.uniform_crds] (line 94); [dat] is [fld.data] (line 25).
    The component index [m] matters because face and edge centred vector fields
    have different coordinates for each component (line 30). *)
Record cfield := mkf {
  nn : nat -> nat;
  crd : nat -> nat -> nat -> Q;
  unif : bool;
  dat : nat -> nat -> nat -> nat -> Q }.

(** cyfield.pyx 51-52: the coordinates of all axes live in one buffer as wide as
    the longest axis, filled with NaN. *)
Definition smax (f : cfield) : nat := Nat.max (nn f 0) (Nat.max (nn f 1) (nn f 2)).

(** cyfield.pyx 89-91 *)
Definition xl (f : cfield) m d : Q := crd f m d 0.
Definition xh (f : cfield) m d : Q := crd f m d (nn f d - 1).
Definition xL (f : cfield) m d : Q := xh f m d - xl f m d.

(** What reading [fld.crds[m, d, i]] gives: a coordinate, the NaN padding, or
    memory outside the row (cycalc.pyx line 1 switches bounds checks off). *)
Inductive cell := Val (q : Q) | NaN | Outside.
Definition read (f : cfield) m d i : cell :=
  if (i <? nn f d)%nat then Val (crd f m d i)
  else if (i <? smax f)%nat then NaN else Outside.

(** cycalc.pyx 272-277: forward search from [i]; [k] steps are left.
    [n] is the number of coordinates. *)
Fixpoint search_up (c : nat -> Q) (v : Q) (n i k : nat) {struct k} : nat :=
  match k with
  | O => (n - 1)%nat
  | S k' => if Qltb v (c (S i)) then i else search_up c v n (S i) k'
  end.

(** cycalc.pyx 280-285: backward search, looking at [k-1], [k-2], ... 0.  A NaN
    coordinate compares false and is passed over. *)
Fixpoint search_down (c : nat -> cell) (v : Q) (k : nat) {struct k} : nat :=
  match k with
  | O => O
  | S k' => match c k' with
            | Val q => if Qle_bool q v then k' else search_down c v k'
            | _ => search_down c v k'
            end
  end.

(** cycalc.pyx 240-289.  [start] is [cached_idx3[d]].  [None] means the code
    reads outside the coordinate buffer.  The index returned is also the new
    cached index (line 288). *)
Definition closest_preceeding_ind (f : cfield) (m d : nat) (v : Q) (start : nat) : option nat :=
  let n := nn f d in
  if (n =? 1)%nat then Some O
  else if unif f then
    let frac := (v - xl f m d) / xL f m d in
    let i := Qfloor (inject_Z (Z.of_nat n - 1) * frac) in
    Some (Z.to_nat (Z.min (Z.max i 0) (Z.of_nat n - 2)))
  else
    match read f m d start with
    | Outside => None
    | Val q => if Qle_bool q v
               then Some (search_up (crd f m d) v n start (n - 1 - start))
               else Some (search_down (read f m d) v start)
    | NaN => Some (search_down (read f m d) v start)
    end.

(** cycalc.pyx 291-303 *)
Definition closest_ind (f : cfield) (m d : nat) (v : Q) (start : nat) : option (nat * nat) :=
  match closest_preceeding_ind f m d v start with
  | None => None
  | Some p =>
      if (p =? nn f d - 1)%nat then Some ((nn f d - 1)%nat, p)
      else if Qle_bool (Qabs (crd f m d p - v)) (Qabs (crd f m d (S p) - v))
           then Some (p, p) else Some (S p, p)
  end.

(** [cached_idx3], one index per axis (cycalc.pyx 132-134). *)
Definition cache := (nat * nat * nat)%type.
Definition cache0 : cache := (0, 0, 0)%nat.

(** A point of space, axis by axis. *)
Definition co (x : pt) (d : nat) : Q :=
  match d with O => px x | S O => py x | _ => pz x end.

(** cycalc.pyx 159-175, one axis: index, increment, fraction, new cached index. *)
Definition locate (f : cfield) (m d : nat) (v : Q) (start : nat)
  : option (nat * nat * Q * nat) :=
  if ((nn f d =? 1)%nat || Qle_bool v (xl f m d))%bool then Some (O, O, 0, start)
  else if Qle_bool (xh f m d) v then Some ((nn f d - 1)%nat, O, 0, start)
  else match closest_preceeding_ind f m d v start with
       | None => None
       | Some i => Some (i, 1%nat,
                         (v - crd f m d i) / (crd f m d (S i) - crd f m d i), i)
       end.

(** cycalc.pyx 177-192 *)
Definition lerp1 (a b t : Q) : Q := a + t * (b - a).
Definition trilin (g : nat -> nat -> nat -> Q) (i j k p q r : nat) (tx ty tz : Q) : Q :=
  let c00 := lerp1 (g i j k) (g (i + p)%nat j k) tx in
  let c10 := lerp1 (g i (j + q)%nat k) (g (i + p)%nat (j + q)%nat k) tx in
  let c01 := lerp1 (g i j (k + r)%nat) (g (i + p)%nat j (k + r)%nat) tx in
  let c11 := lerp1 (g i (j + q)%nat (k + r)%nat)
                   (g (i + p)%nat (j + q)%nat (k + r)%nat) tx in
  let c0 := lerp1 c00 c10 ty in
  let c1 := lerp1 c01 c11 ty in
  lerp1 c0 c1 tz.

(** cycalc.pyx 149-208 *)
Definition interp_trilin1 (f : cfield) (m : nat) (x : pt) (h : cache) : option (Q * cache) :=
  let '(h0, h1, h2) := h in
  match locate f m 0 (px x) h0, locate f m 1 (py x) h1, locate f m 2 (pz x) h2 with
  | Some (i, p, tx, h0'), Some (j, q, ty, h1'), Some (k, r, tz, h2') =>
      Some (trilin (fun a b c => dat f a b c m) i j k p q r tx ty tz, (h0', h1', h2'))
  | _, _, _ => None
  end.

(** cycalc.pyx 230-237 *)
Definition interp_nearest1 (f : cfield) (m : nat) (x : pt) (h : cache) : option (Q * cache) :=
  let '(h0, h1, h2) := h in
  match closest_ind f m 0 (px x) h0, closest_ind f m 1 (py x) h1, closest_ind f m 2 (pz x) h2 with
  | Some (i, h0'), Some (j, h1'), Some (k, h2') => Some (dat f i j k m, (h0', h1', h2'))
  | _, _, _ => None
  end.

(** misc_inlines.pxd 17-37; [atol] is 1e-6 and [rtol] 1e-5 *)
Definition isclose (a b : Q) : bool :=
  Qle_bool (Qabs (a - b)) ((1 # 1000000) + (1 # 100000) * Qabs b).
Definition less_close (a b : Q) : bool := (Qle_bool a b || isclose a b)%bool.
Definition less_not_close (a b : Q) : bool := (Qltb a b && negb (isclose a b))%bool.
Definition greater_not_close (a b : Q) : bool := (Qltb b a && negb (isclose a b))%bool.

(** amr_grid.py 241-262: a patch, its extent and the field values on it.  The
    centre and the edge lengths are computed from the extent. *)
Record patch := mkpatch { p_xl : pt; p_xh : pt; p_fld : cfield }.
Definition p_xm (p : patch) (d : nat) : Q := (1 # 2) * (co (p_xl p) d + co (p_xh p) d).
Definition p_L (p : patch) (d : nat) : Q := co (p_xh p) d - co (p_xl p) d.

(** cyamr.pyx 170-176 *)
Definition contains_patch (p : patch) (x : pt) : bool :=
  negb (existsb (fun k => (less_not_close (co x k) (co (p_xl p) k) ||
                           greater_not_close (co x k) (co (p_xh p) k))%bool) [0; 1; 2]%nat).

(** cyamr.pyx 205-213: the nearest centre, scanning from patch [j]; [best] is
    [closest] and [bsq] is [closest_rsq]. *)
Definition rsq (x : pt) (p : patch) : Q :=
  (px x - p_xm p 0) * (px x - p_xm p 0) + (py x - p_xm p 1) * (py x - p_xm p 1)
  + (pz x - p_xm p 2) * (pz x - p_xm p 2).
Fixpoint nearest_centre (x : pt) (ps : list patch) (j best : nat) (bsq : Q) {struct ps} : nat :=
  match ps with
  | [] => best
  | p :: ps' => if Qltb (rsq x p) bsq then nearest_centre x ps' (S j) j (rsq x p)
                else nearest_centre x ps' (S j) best bsq
  end.

(** cyamr.pxd/cyfield.pxd MAX_FLOAT, the initial [closest_rsq]; the value only
    has to exceed every squared distance that occurs. *)
Definition MAX_FLOAT : Q := inject_Z (10 ^ 38).

(** First [j] of a list of candidates whose patch contains [x]. *)
Definition first_containing (ps : list patch) (x : pt) (js : list nat) : option nat :=
  find (fun j => match nth_error ps j with Some p => contains_patch p x | None => false end) js.

(** cyamr.pyx 178-216: index of the patch that is active after the call.  [nbs]
    are the neighbour rows found by [discover_neighbors]. *)
Definition activate_patch (ps : list patch) (nbs : list (list nat)) (active : nat) (x : pt) : nat :=
  if (length ps =? 1)%nat then active
  else match first_containing ps x [active] with
       | Some j => j
       | None =>
           match first_containing ps x (nth active nbs []) with
           | Some j => j
           | None => match first_containing ps x (seq 0 (length ps)) with
                     | Some j => j
                     | None => nearest_centre x ps 0 0 MAX_FLOAT
                     end
           end
       end.

(** cycalc.pyx 138-146 and 220-227: the loop over components of one point. *)
Definition kernel := cfield -> nat -> pt -> cache -> option (Q * cache).

Fixpoint interp_comps (K : kernel) (ps : list patch) (nbs : list (list nat)) (x : pt)
    (ms : list nat) (a : nat) (h : cache) {struct ms} : option (list Q * nat * cache) :=
  match ms with
  | [] => Some ([], a, h)
  | m :: ms' =>
      let a' := if (1 <? length ps)%nat then activate_patch ps nbs a x else a in
      match nth_error ps a' with
      | None => None
      | Some p =>
          match K (p_fld p) m x h with
          | None => None
          | Some (v, h') => match interp_comps K ps nbs x ms' a' h' with
                            | None => None
                            | Some (vs, a2, h2) => Some (v :: vs, a2, h2)
                            end
          end
      end
  end.

(** cycalc.pyx 137-147 and 219-228: the loop over points. *)
Fixpoint interp_points (K : kernel) (ps : list patch) (nbs : list (list nat)) (nc : nat)
    (xs : list pt) (a : nat) (h : cache) {struct xs} : option (list (list Q)) :=
  match xs with
  | [] => Some []
  | x :: xs' => match interp_comps K ps nbs x (seq 0 nc) a h with
                | None => None
                | Some (vs, a', h') => match interp_points K ps nbs nc xs' a' h' with
                                       | None => None
                                       | Some r => Some (vs :: r)
                                       end
                end
  end.

(** cycalc.pyx 20-89 on a prepared field: patch 0 is active (cyamr.pyx 165-166)
    and the cached indices are zero (cycalc.pyx 134, 216).  A field that is not
    AMR is one patch. *)
Definition interp (K : kernel) (ps : list patch) (nbs : list (list nat)) (nc : nat)
    (xs : list pt) : option (list (list Q)) :=
  interp_points K ps nbs nc xs 0 cache0.

(** cyamr.pyx 82-89 *)
Definition possible_neighbor (p q : patch) : bool :=
  forallb (fun k => less_close (Qabs (p_xm p k - p_xm q k)) ((1 # 2) * (p_L p k + p_L q k)))
          [0; 1; 2]%nat.

(** cyamr.pyx 92-100: the two masks, starting from 0. *)
Definition mask_step (p q : patch) (acc : Z * Z) (k : nat) : Z * Z :=
  let r := p_xm p k - p_xm q k in
  if isclose (Qabs r - (1 # 2) * (p_L p k + p_L q k)) 0 then
    let '(ff, fi) := if Qle_bool 0 r then (1, 2)%Z else (2, 1)%Z in
    (Z.lor (Z.lor (fst acc) (Z.shiftl 1 (6 + Z.of_nat k))) (Z.shiftl ff (2 * Z.of_nat k)),
     Z.lor (Z.lor (snd acc) (Z.shiftl 1 (6 + Z.of_nat k))) (Z.shiftl fi (2 * Z.of_nat k)))
  else acc.
Definition masks (p q : patch) : Z * Z :=
  if possible_neighbor p q then fold_left (mask_step p q) [0; 1; 2]%nat (0, 0)%Z
  else (0, 0)%Z.

(** cyamr.pyx 55: the width of the neighbour table *)
Definition max_neighbors : nat := 48.

(** A row of [neighbors] and [neighbor_mask], its first [nr_neighbors] entries.
    Appending past the width raises IndexError: cyamr.pyx line 1 keeps bounds
    checks on. *)
Notation row := (list (nat * Z)).
Definition append_row (rows : list row) (i : nat) (e : nat * Z) : option (list row) :=
  match nth_error rows i with
  | None => None
  | Some r => if (length r <? max_neighbors)%nat
              then Some (firstn i rows ++ (r ++ [e]) :: skipn (S i) rows) else None
  end.

(** cyamr.pyx 76-109, one pair *)
Definition neighbor_pair (ps : list patch) (acc : option (list row)) (ij : nat * nat)
  : option (list row) :=
  match acc, nth_error ps (fst ij), nth_error ps (snd ij) with
  | Some rows, Some p, Some q =>
      let '(fmask, imask) := masks p q in
      if (fmask =? 0)%Z then Some rows
      else match append_row rows (fst ij) (snd ij, fmask) with
           | Some rows1 => append_row rows1 (snd ij) (fst ij, imask)
           | None => None
           end
  | _, _, _ => None
  end.

(** cyamr.pyx 23-110; [None] is the IndexError *)
Definition pairs (n : nat) : list (nat * nat) :=
  flat_map (fun i => map (fun j => (i, j)) (seq 0 i)) (seq 0 n).
Definition discover_neighbors (ps : list patch) : option (list row) :=
  fold_left (neighbor_pair ps) (pairs (length ps)) (Some (repeat [] (length ps))).

(** amr_grid.py 129-145: whether a skeleton is reused for another dataset.
    [np.allclose] (rtol 1e-5, atol 1e-8) on the lower corners only. *)
Definition np_isclose (a b : Q) : bool :=
  Qle_bool (Qabs (a - b)) ((1 # 100000000) + (1 # 100000) * Qabs b).
Definition patch_compatable (my p : patch) (ncells_my ncells : nat -> nat) : bool :=
  (forallb (fun k => (ncells_my k =? ncells k)%nat) [0; 1; 2]%nat &&
   forallb (fun k => np_isclose (co (p_xl my) k) (co (p_xl p) k)) [0; 1; 2]%nat)%bool.
