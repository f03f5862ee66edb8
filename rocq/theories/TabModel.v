(** Model of the readers of text tables: viscid/readers/athena_tab.py (header 113-143, coordinates 145-179, values 208-213), viscid/readers/ascii.py 28-42 and viscid/readers/athena_hst.py 27-49.

    SIMPLIFICATIONS: numbers are exact (no float32); the rows of a table are parsed already, only the time in the header is read by characters; a line of the header that
    has a time has the word Time once; a column that a row does not have counts as zeros (loadtxt raises; the theorems are about tables that have the columns). *)
From Coq Require Import String Ascii List Bool Arith ZArith QArith.
Import ListNotations.

(** ** header *)
Inductive header_line := HDim (n : nat) | HTime (after : list ascii) | HNames (l : list string) | HOther.
Definition code (c : ascii) : nat := nat_of_ascii c.
Definition is_digit (c : ascii) : bool := ((48 <=? code c) && (code c <=? 57))%nat.
Definition is_dot (c : ascii) : bool := (code c =? 46)%nat.
Definition is_space (c : ascii) : bool := (code c =? 32)%nat.
Fixpoint skip (p : ascii -> bool) (s : list ascii) : list ascii := match s with [] => [] | c :: r => if p c then skip p r else s end.
Fixpoint take (p : ascii -> bool) (s : list ascii) : list ascii := match s with [] => [] | c :: r => if p c then c :: take p r else [] end.
(* 127: the group of the regular expression: blanks, =, blanks, digits and dots *)
Definition time_text (after : list ascii) : option (list ascii) :=
  match skip is_space after with
  | c :: r => if (code c =? 61)%nat then match take (fun c => is_digit c || is_dot c) (skip is_space r) with [] => None | t => Some t end else None
  | [] => None
  end.
Definition whole (t : list ascii) : nat := fold_left (fun a c => (10 * a + (code c - 48))%nat) t 0%nat.
(* float of a text of digits and dots: 0.0 is the time when no line has one *)
Definition to_float (t : list ascii) : option Q :=
  let a := take is_digit t in
  match skip is_digit t with
  | [] => Some (inject_Z (Z.of_nat (whole a)))                                                (* not empty *)
  | _ :: b => if forallb is_digit b && negb (match a, b with [], [] => true | _, _ => false end)
              then Some (inject_Z (Z.of_nat (whole a)) + inject_Z (Z.of_nat (whole b)) / inject_Z (10 ^ Z.of_nat (length b))) else None
  end.
(* 113-143: the time, the dims, the names of the fields *)
Fixpoint header (ls : list header_line) (t : list ascii) (dims : list nat) (names : list string) : option (list ascii * list nat * list string) :=
  match ls with
  | [] => Some (t, dims, names)
  | HDim n :: r => header r t (dims ++ [n]) names
  | HTime s :: r => match time_text s with Some t' => header r t' dims names | None => None end
  | HNames l :: r => header r t dims l
  | HOther :: r => header r t dims names
  end.
Definition parse_header (ls : list header_line) : option (Q * list nat * list string) :=
  match header ls (list_ascii_of_string "0.0") [] [] with
  | Some (t, dims, names) => match to_float t with Some q => Some (q, dims, skipn (2 * length dims) names) | None => None end
  | None => None
  end.

(** ** coordinates *)
Definition table := list (list Q).
Definition column (c : nat) (rows : table) : list Q := map (fun r => nth c r 0%Q) rows.
Definition product (l : list nat) : nat := fold_left Nat.mul l 1%nat.
(* l[:stop:step] *)
Definition strided (stop step : nat) (l : list Q) : option (list Q) :=
  if (step =? 0)%nat then None else let n := Nat.min stop (length l) in Some (map (fun k => nth (k * step) l 0%Q) (seq 0 ((n + step - 1) / step))).
(* 155-163; np.min of no differences raises *)
Definition axis_centres (dims : list nat) (rows : table) (i : nat) : option (list Q) :=
  match strided (product (firstn (S i) dims)) (product (firstn i dims)) (column (length dims + i) rows) with
  | Some cc => if (length cc <? 2)%nat then None else if (length cc =? nth i dims 0)%nat then Some cc else None
  | None => None
  end.
(* 167-170 *)
Definition nodes (cc : list Q) : list Q :=
  let hd := map (fun i => (1 # 2) * (nth (S i) cc 0 - nth i cc 0))%Q (seq 0 (length cc - 1)) in
  (nth 0 cc 0 - nth 0 hd 0)%Q :: map (fun i => nth i cc 0 + nth i hd 0)%Q (seq 0 (length cc - 1)) ++ [(nth (length cc - 1) cc 0 + nth (length cc - 2) hd 0)%Q].
Fixpoint all_some {A} (l : list (option A)) : option (list A) :=
  match l with [] => Some [] | Some x :: r => match all_some r with Some y => Some (x :: y) | None => None end | None :: _ => None end.
(* 145-179; zip with the three names of the axes *)
Definition read_crds (dims : list nat) (rows : table) : option (list (list Q)) :=
  match all_some (map (axis_centres dims rows) (seq 0 (Nat.min 3 (length dims)))) with Some l => Some (map nodes l) | None => None end.
(** ** values *)
(* numpy, order C: the place of an element in the flat array *)
Definition ravel (shape ix : list nat) : nat := fold_left (fun a p => (a * fst p + snd p)%nat) (combine shape ix) 0%nat.
(* 100-104, 208-213: the shape is that of the cells, zyx; [ix] is the index of the field, xyz *)
Definition field_at (dims : list nat) (rows : table) (num : nat) (ix : list nat) : option Q :=
  let shape := rev dims in
  let arr := column (2 * length shape + num) rows in
  if (length arr =? product shape)%nat then Some (nth (ravel shape (rev ix)) arr 0%Q) else None.

(** ** columns *)
(* np.loadtxt: axes of length one are taken away *)
Inductive array := A2 (rows : table) | A1 (l : list Q) | A0 (x : Q).
Definition loadtxt (rows : table) : array :=
  match rows with
  | [[x]] => A0 x
  | [r] => A1 r
  | _ => if forallb (fun r => (length r =? 1)%nat) rows then A1 (column 0 rows) else A2 rows
  end.
Definition width (rows : table) : nat := length (nth 0 rows []).
(* ascii.py 31-39: coordinates and the fields in order, by number; None: IndexError *)
Definition read_ascii (rows : table) : option (list Q * list (nat * list Q)) :=
  match loadtxt rows with
  | A2 a => Some (column 0 a, map (fun i => (i, column i a)) (seq 1 (width a - 1)))
  | _ => None
  end.
(* athena_hst.py 38-46 for more than one row and column; None: IndexError, or not modelled for a single row or column *)
Definition read_hst (names : list string) (rows : table) : option (list Q * list (string * list Q)) :=
  match loadtxt rows with
  | A2 a => if (length names <=? width a)%nat then Some (column 0 a, map (fun i => (nth i names ""%string, column i a)) (seq 1 (length names - 1))) else None
  | _ => None
  end.
