(** Model of viscid/calculator/separator.py: [topology_bitor_clusters] (130-214, up to the call of
    [find_clusters], which is in ClusterModel) and the bisection [get_sep_pts_bisect] (263-514).

    Coordinates are rationals: rounding is not modelled.  Topologies are integers, not negative. *)
From Coq Require Export List ZArith QArith Lia Bool.
Export ListNotations.
Open Scope Z_scope.

(** * topology_bitor_clusters *)
(* an array with its shape; [ax] and [ay] are the coordinates *)
Record topo := TP { rows : Z; cols : Z; at_ : Z -> Z -> Z; ax : Z -> Q; ay : Z -> Q }.
Inductive serr := TypeError | IndexError | NameError.

(* 173: a[(0, -1), :] |= a[(-1, 0), :]; the right side is a copy *)
Definition wrap_rows (t : topo) : topo :=
  TP (rows t) (cols t) (fun i j => if (i =? 0) || (i =? rows t - 1) then Z.lor (at_ t 0 j) (at_ t (rows t - 1) j) else at_ t i j) (ax t) (ay t).
(* 175 *)
Definition wrap_cols (t : topo) : topo :=
  TP (rows t) (cols t) (fun i j => if (j =? 0) || (j =? cols t - 1) then Z.lor (at_ t i 0) (at_ t i (cols t - 1)) else at_ t i j) (ax t) (ay t).
(* 172-175; an empty axis has no element 0 *)
Definition wrap (pd : bool * bool) (t : topo) : topo + serr :=
  if (fst pd && (rows t =? 0)) || (snd pd && (cols t =? 0)) then inr IndexError
  else let t := if fst pd then wrap_rows t else t in
       inl (if snd pd then wrap_cols t else t).
(* 177-180 *)
Definition halve (t : topo) : topo :=
  TP (Z.max 0 (rows t - 1)) (Z.max 0 (cols t - 1))
     (fun i j => Z.lor (Z.lor (Z.lor (at_ t i j) (at_ t i (j + 1))) (at_ t (i + 1) j)) (at_ t (i + 1) (j + 1)))
     (fun i => (1 # 2) * (ax t (i + 1)%Z + ax t i))%Q (fun j => (1 # 2) * (ay t (j + 1)%Z + ay t j))%Q.
(* 189: np.where(a == sep_val), by rows *)
Definition where_ (sep_val : Z) (t : topo) : list (Z * Z) :=
  flat_map (fun i => flat_map (fun j => if at_ t (Z.of_nat i) (Z.of_nat j) =? sep_val then [(Z.of_nat i, Z.of_nat j)] else [])
    (seq 0 (Z.to_nat (cols t)))) (seq 0 (Z.to_nat (rows t))).
(* 171-191: [i] is the number of the pass; [passes] are to do.  184-187: [slc] is a tuple and cannot be assigned to *)
Fixpoint bitor_loop (passes : nat) (i min_depth : Z) (pd : bool * bool) (pt_bnds : bool) (sep_val : Z) (t : topo) (ind : list (Z * Z)) : (topo * list (Z * Z)) + serr :=
  match passes with
  | O => inl (t, ind)
  | S passes =>
      match wrap pd t with
      | inr e => inr e
      | inl t =>
          let t := halve t in
          if pt_bnds then inr TypeError
          else let ind := where_ sep_val t in
               if (min_depth <=? i + 1) && negb (match ind with [] => true | _ => false end) then inl (t, ind)
               else bitor_loop passes (i + 1) min_depth pd pt_bnds sep_val t ind
      end
  end.
(* 164-191; with no pass [indx] is not defined *)
Definition mask (mask_limit : Z) (t : topo) : topo :=
  if mask_limit =? 0 then t else TP (rows t) (cols t) (fun i j => Z.land (at_ t i j) mask_limit) (ax t) (ay t).
Definition bitor (min_depth : Z) (max_depth : nat) (sep_val mask_limit : Z) (pd : bool * bool) (pt_bnds : bool) (t : topo) : (topo * list (Z * Z)) + serr :=
  match max_depth with
  | O => inr NameError
  | _ => bitor_loop max_depth 0 min_depth pd pt_bnds sep_val (mask mask_limit t) []
  end.
(* the data of the argument after the call: without a mask they are updated in place (173, 175) *)
Definition input_after (max_depth : nat) (mask_limit : Z) (pd : bool * bool) (t : topo) : topo :=
  if mask_limit =? 0 then match max_depth, wrap pd t with S _, inl t' => t' | _, _ => t end else t.

(** * get_sep_pts_bisect *)
(* a hexadecimal digit: the quadrant 0-3 and UNEVEN_MASK *)
Definition quad := (nat * bool)%type.
Record rect := RT { xl : Q; xh : Q; yl : Q; yh : Q }.
(* 493: midpt *)
Definition half (uneven : bool) : Q := if uneven then 65 # 100 else 1 # 2.
(* 482-507 *)
Definition child (r : rect) (q : quad) : rect :=
  let m := half (snd q) in
  let xm := (xl r + m * (xh r - xl r))%Q in
  let ym := (yl r + m * (yh r - yl r))%Q in
  RT (if Nat.odd (fst q) then xm else xl r) (if Nat.odd (fst q) then xh r else xm)
     (if Nat.leb 2 (fst q) then ym else yl r) (if Nat.leb 2 (fst q) then yh r else ym).
Definition limits (r : rect) (qs : list quad) : rect := fold_left child qs r.
(* 509-514 *)
Definition center (r : rect) (qs : list quad) : Q * Q :=
  let c := limits r qs in
  let m := half (snd (last qs (0%nat, false))) in
  ((xl c + m * (xh c - xl c))%Q, (yl c + m * (yh c - yl c))%Q).

(* np.linspace *)
Definition linspace (a b : Q) (n : nat) : list Q :=
  match n with
  | O => []
  | 1%nat => [a]
  | _ => map (fun k => a + inject_Z (Z.of_nat k) * ((b - a) / inject_Z (Z.of_nat (n - 1))))%Q (seq 0 n)
  end.
Section BISECT.
Variables (T : Q -> Q -> Z) (nxm nym : nat) (ext : rect).

(* 361-376: the twelve segments of a rectangle cut at (xm, ym) *)
Definition hor (a b y : Q) : list (Q * Q) := map (fun x => (x, y)) (linspace a b nxm).
Definition ver (x a b : Q) : list (Q * Q) := map (fun y => (x, y)) (linspace a b nym).
Definition seg (lo hi : rect) (i : nat) : list (Q * Q) :=
  let '(x0, xm, x1) := (xl lo, xh lo, xh hi) in
  let '(y0, ym, y1) := (yl lo, yh lo, yh hi) in
  match i with
  | 0 => hor x0 xm y0 | 1 => ver xm y0 ym | 2 => hor xm x0 ym | 3 => ver x0 ym y0
  | 4 => hor xm x1 y0 | 5 => ver x1 y0 ym | 6 => hor x1 xm ym
  | 7 => ver x1 ym y1 | 8 => hor x1 xm y1 | 9 => ver xm ym y1
  | 10 => hor xm x0 y1 | _ => ver x0 y1 ym
  end%nat.
(* [:-1] and [-1:0:-1] *)
Definition init {A} (l : list A) : list A := removelast l.
Definition back {A} (l : list A) : list A := rev (tl l).
(* 399-409 *)
Definition quad_pts (lo hi : rect) (i : nat) : list (Q * Q) :=
  let s := seg lo hi in
  match i with
  | 0 => init (s 0) ++ init (s 1) ++ init (s 2) ++ init (s 3)
  | 1 => init (s 4) ++ init (s 5) ++ init (s 6) ++ back (s 1)
  | 2 => back (s 2) ++ init (s 9) ++ init (s 10) ++ init (s 11)
  | _ => back (s 6) ++ init (s 7) ++ init (s 8) ++ back (s 9)
  end%nat.
(* 427-430 *)
Definition perimeter (lo hi : rect) : list (Q * Q) :=
  let s := seg lo hi in
  rev (s 0%nat) ++ rev (s 4%nat) ++ rev (s 5%nat) ++ rev (s 7%nat) ++ rev (s 8%nat) ++ rev (s 10%nat) ++ rev (s 11%nat) ++ rev (s 3%nat).
(* 263-269: the default perimeter_check *)
Definition check (l : list (Q * Q)) : bool := fold_right Z.lor 0 (map (fun p => T (fst p) (snd p)) l) =? 15.

(* 353-356: the rectangles of the first and last quadrant *)
Definition lo_of (base : list quad) (uneven : bool) : rect := limits ext (base ++ [(0%nat, uneven)]).
Definition hi_of (base : list quad) (uneven : bool) : rect := limits ext (base ++ [(3%nat, uneven)]).
(* 414-424: one pass over the four quadrants *)
Definition level (rec : list quad -> list (list quad)) (base : list quad) (uneven : bool) : list (list quad) :=
  flat_map (fun i => if check (quad_pts (lo_of base uneven) (hi_of base uneven) i) then rec (base ++ [(i, uneven)]) else []) [0; 1; 2; 3]%nat.
Variable min_depth : nat.
(* 431-437: nothing found with the uneven division *)
Definition give_up (base : list quad) : list (list quad) := if Nat.ltb min_depth (length base) then [base] else [].
(* 313-445 without plots; [rem] is max_depth - len(base) *)
Fixpoint bisect (rem : nat) (base : list quad) (uneven : bool) : list (list quad) :=
  match rem with
  | O => [base]
  | S rem =>
      let ret := level (fun b => bisect rem b false) base uneven in
      match ret with
      | _ :: _ => ret
      | [] =>
          if uneven then give_up base
          else if check (perimeter (lo_of base uneven) (hi_of base uneven)) then
            match level (fun b => bisect rem b false) base true with
            | [] => give_up base
            | ret => ret
            end
          else []
      end
  end.
End BISECT.
(* 271-311, 457-480 with make_3d=False; max_depth = 0 is not modelled (the strings are returned) *)
Definition get_sep_pts (T : Q -> Q -> Z) (nx ny : nat) (ext : rect) (min_depth max_depth : nat) : list (Q * Q) :=
  let b := bisect T (nx / 2) (ny / 2) ext in
  let even := b 0%nat 2%nat [] false in
  let uneven := b 0%nat 2%nat [] true in
  let start_uneven := Nat.ltb (length even) (length uneven) in
  map (center ext) (b min_depth max_depth [] start_uneven).
