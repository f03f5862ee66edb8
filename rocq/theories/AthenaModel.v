(** Model of the reader of Athena's binary files: viscid/readers/athena_bin.py 83-166, 225-260, 279-345 and 380-392, and of the grouping of files into
    time series: viscid/readers/athena.py 19-47.

    A file is a list of bytes (0 to 255).  A float is [w] bytes (4 or 8) and is turned into a number by [dec], which takes the bytes in
    little endian order.

    SIMPLIFICATIONS: coordinates are exact; a header that is cut off counts as an error, where numpy may return shorter arrays; the numbers of cells are
    not negative (in a file with a negative number numpy reads to the end); if no axis has two cells the coordinates are infinite, this counts as an
    error; only conserved variables ([var_type="cons"]). *)
From Coq Require Import String.
From Coq Require Import List ZArith QArith DecimalString Lia.
Import ListNotations.
Open Scope Z_scope.

(* np.fromfile(dtype="<i"/">i") *)
Definition word (l : list Z) : Z := fold_right (fun b acc => b + 256 * acc) 0 l.
Definition signed (n : Z) : Z := if n <? 2 ^ 31 then n else n - 2 ^ 32.
Definition int_at (big : bool) (bs : list Z) (pos : nat) : option Z :=
  let l := firstn 4 (skipn pos bs) in
  if (length l =? 4)%nat then Some (signed (word (if big then rev l else l))) else None.

Record header := { h_big : bool; h_nx : nat; h_ny : nat; h_nz : nat; h_nvars : Z; h_names : list string; h_time : Q; h_x : list Q; h_y : list Q; h_z : list Q;
                   h_loc : nat }.

Section FILE.
Variable w : nat.
Variable dec : list Z -> Q.
(* np.fromfile(dtype=self._float_dtype, count=n) *)
Fixpoint floats_at (big : bool) (bs : list Z) (pos n : nat) : option (list Q) :=
  match n with
  | O => Some []
  | S n => let l := firstn w (skipn pos bs) in
           if (length l =? w)%nat then option_map (cons (dec (if big then rev l else l))) (floats_at big bs (pos + w) n) else None
  end.

(* 306-327; [str(i)] *)
Definition str (n : nat) : string := NilEmpty.string_of_uint (Nat.to_uint n).
Definition names (nvars nscalars : Z) : list string :=
  let nprim := nvars - nscalars in
  ["d"; "M1"; "M2"; "M3"]%string ++
  (if (nprim =? 5) || (nprim =? 8) then ["E"%string] else []) ++
  (if (nprim =? 7) || (nprim =? 8) then ["B1"; "B2"; "B3"]%string else []) ++
  map (fun i => str (Z.to_nat (nprim + Z.of_nat i))) (seq 0 (Z.to_nat nscalars)).

(* 279-345 *)
Definition bind {A B} (x : option A) (f : A -> option B) : option B := match x with Some a => f a | None => None end.
Definition read_header (bs : list Z) : option header :=
  bind (int_at false bs 16) (fun nv =>                                                             (* dims[3] *)
  let big := negb (nv <? 1000) in
  bind (int_at big bs 4) (fun nx => bind (int_at big bs 8) (fun ny => bind (int_at big bs 12) (fun nz =>
  bind (int_at big bs 16) (fun nvars => bind (int_at big bs 20) (fun nscalars =>
  bind (int_at big bs 24) (fun _ => bind (int_at big bs 28) (fun _ =>
  let nx := Z.to_nat nx in let ny := Z.to_nat ny in let nz := Z.to_nat nz in
  bind (floats_at big bs 32 2) (fun _ =>                                                           (* gamm1, cs *)
  bind (floats_at big bs (32 + 2 * w) 2) (fun td =>                                                (* time, dt *)
  let p := (32 + 4 * w)%nat in
  bind (floats_at big bs p nx) (fun x => bind (floats_at big bs (p + nx * w) ny) (fun y => bind (floats_at big bs (p + (nx + ny) * w) nz) (fun z =>
  Some {| h_big := big; h_nx := nx; h_ny := ny; h_nz := nz; h_nvars := nvars; h_names := names nvars nscalars; h_time := nth 0 td 0%Q;
          h_x := x; h_y := y; h_z := z; h_loc := (p + (nx + ny + nz) * w)%nat |}))))))))))))).

(* 225-244 *)
Definition read_field (h : header) (bs : list Z) (id : nat) : option (list Q) :=
  if Z.of_nat id <? h_nvars h then
    let count := (h_nz h * h_ny h * h_nx h)%nat in
    floats_at (h_big h) bs (h_loc h + id * (count * w)) count
  else None.                                                                                       (* IndexError *)

(* 143-166: [hd] is half the distance to the next one; an axis with one cell has the size of the smallest distance *)
Fixpoint halves (c : list Q) : list Q :=
  match c with
  | a :: ((b :: _) as r) => ((1 # 2) * (b - a))%Q :: halves r
  | _ => []
  end.
Fixpoint mids (c hd : list Q) : list Q := match c, hd with a :: c, h :: hd => (a + h)%Q :: mids c hd | _, _ => [] end.
Definition qmin (a b : Q) : Q := if Qle_bool a b then a else b.
Fixpoint min_diff (c : list Q) (acc : option Q) : option Q :=
  match c with
  | a :: ((b :: _) as r) => min_diff r (Some (match acc with Some m => qmin m (b - a) | None => (b - a)%Q end))
  | _ => acc
  end.
Definition axis_nodes (dxmin : option Q) (cc : list Q) : option (list Q) :=
  match halves cc with
  | (h0 :: _) as hd => Some ((nth 0 cc 0 - h0)%Q :: mids cc hd ++ [(last cc 0 + last hd 0)%Q])
  | [] => match cc, dxmin with
          | c :: _, Some d => Some [c - (1 # 2) * d; c + (1 # 2) * d]%Q
          | _, _ => None
          end
  end.
Definition make_crds (h : header) : option (list Q * list Q * list Q) :=
  let d := min_diff (h_x h) (min_diff (h_y h) (min_diff (h_z h) None)) in
  bind (axis_nodes d (h_x h)) (fun x => bind (axis_nodes d (h_y h)) (fun y => bind (axis_nodes d (h_z h)) (fun z => Some (x, y, z)))).

(** what a user sees: time, node coordinates, the names of the fields and their values, which are kept until asked for *)
Record loaded := { l_time : Q; l_x : list Q; l_y : list Q; l_z : list Q; l_fields : list (string * option (list Q)) }.
(* 108-141 *)
Definition load (bs : list Z) : option loaded :=
  bind (read_header bs) (fun h => bind (make_crds h) (fun c => let '(x, y, z) := c in
  Some {| l_time := h_time h; l_x := x; l_y := y; l_z := z;
          l_fields := map (fun p => (snd p, read_field h bs (fst p))) (combine (seq 0 (length (h_names h))) (h_names h)) |})).
(* the bucket of fields: a later field takes the name *)
Definition get_field (r : loaded) (name : string) : option (option (list Q)) :=
  fold_left (fun acc p => if String.eqb (fst p) name then Some (snd p) else acc) (l_fields r) None.
(* 380-392 and vfile: zyx order *)
Definition at_cell (r : loaded) (name : string) (i j k : nat) : option Q :=
  bind (bind (get_field r name) (fun f => f)) (fun l =>
  let nx := (length (l_x r) - 1)%nat in let ny := (length (l_y r) - 1)%nat in
  nth_error l ((k * ny + j) * nx + i)).
End FILE.

(** ** athena.py 19-47: the files of a run, in the order of their numbers; [fnames] with the run and number the name has *)
Section GROUP.
Context {R F : Type}.
Variable leb : R -> R -> bool.
Fixpoint ins {K} (le : K -> K -> bool) (key : R * Z * F -> K) (a : R * Z * F) (l : list (R * Z * F)) : list (R * Z * F) :=
  match l with
  | [] => [a]
  | b :: r => if le (key a) (key b) then a :: l else b :: ins le key a r
  end.
(* list.sort is stable *)
Definition sort_by {K} (le : K -> K -> bool) (key : R * Z * F -> K) (l : list (R * Z * F)) : list (R * Z * F) := fold_right (ins le key) [] l.
Fixpoint split_runs (cur : list (R * Z * F)) (last : R) (l : list (R * Z * F)) : list (list (R * Z * F)) :=
  match l with
  | [] => [cur]
  | a :: r => if leb (fst (fst a)) last && leb last (fst (fst a)) then split_runs (cur ++ [a]) (fst (fst a)) r
              else cur :: split_runs [a] (fst (fst a)) r
  end.
Definition group (l : list (R * Z * F)) : option (list (list F)) :=
  match sort_by leb (fun a => fst (fst a)) (sort_by Z.leb (fun a => snd (fst a)) l) with
  | [] => None                                                                                     (* IndexError *)
  | a :: r => Some (map (map snd) (split_runs [a] (fst (fst a)) r))
  end.
End GROUP.
