(** Model of [_xyzind_from_symdir], viscid/plot/vpyplot.py 2022-2054, and of what [plot2d_lines], 1432-1459, hands to matplotlib.

    SIMPLIFICATIONS: numbers are exact; symdir is given without blanks and in small letters (2023); colours, markers and the limits of the axes are not modelled. The numbers that colour the pieces are those of [_prep_lines] or the coordinate that is not drawn ('zloc'). *)
From Coq Require Import String List ZArith QArith Qabs Bool Arith.
From Verif Require Import PrepModel.
Import ListNotations.
Local Open Scope nat_scope.

Inductive err := ValueError | IndexError | AssertionError.
Inductive res A := Ok (a : A) | Raise (e : err).
Arguments Ok {A}. Arguments Raise {A}.
Notation axes := (nat * nat * option nat)%type.

(** 2039-2043: [i] goes from the last index to 0, and [xy_inds.pop(i)] takes out the item at place [i]; [const i] is [np.allclose(arr[i, :], arr[i, 0])] *)
Fixpoint drop_const (const : nat -> bool) (i : nat) (xy : list nat) : list nat :=
  match i with
  | 0 => xy
  | S i' => drop_const const i' (if (2 <? length xy) && const i' then firstn i' xy ++ skipn (S i') xy else xy)
  end.
(** 2022-2054; [n] is [arr.shape[0]] *)
Definition xyzind (n : nat) (const : nat -> bool) (symdir : string) : res axes :=
  if negb (String.eqb symdir "") then
    if n <? 3 then Raise ValueError
    else if String.eqb symdir "x" then Ok (1, 2, Some 0)
    else if String.eqb symdir "y" then Ok (0, 2, Some 1)
    else if String.eqb symdir "z" then Ok (0, 1, Some 2)
    else Raise ValueError
  else
    let left := drop_const const n (seq 0 n) in
    let '(x, y) := match left with [x; y] => (x, y) | _ => if 2 <? length left then (0, 1) else (0, 0) end in
    Ok (x, y, if 2 <? n then find (fun k => negb ((k =? x) || (k =? y))) (seq 0 n) else None).

(** np.allclose on the items of two points; a number from memory is taken as not close *)
Definition isclose (a b : cell) : bool :=
  match a, b with
  | Some a, Some b => Qle_bool (Qabs (a - b)) ((1 # 100000000) + (1 # 100000) * Qabs b)
  | _, _ => false
  end.
Definition allclose (a b : list cell) : bool := forallb (fun ab => isclose (fst ab) (snd ab)) (combine a b).
(** [np.allclose(segments[i, :], segments[i, 0])]: both ends of piece [i] against its first end *)
Definition seg_const (segs : list (list cell * list cell)) (i : nat) : bool :=
  match nth_error segs i with Some (a, b) => allclose a a && allclose b a | None => false end.

Record picture := Pic { pairs : list ((cell * cell) * (cell * cell)); colour : option (list cell) }.
(** 1440-1457: the axes are found from [segments], an array of (number of pieces, 2, [d]) *)
Definition plot2d (d : nat) (o : drawn) (symdir : string) (flip zloc : bool) : res picture :=
  let segs := segments o in
  match xyzind (length segs) (seg_const segs) symdir with
  | Raise e => Raise e
  | Ok (x0, y0, z) =>
      let '(x, y) := if flip then (y0, x0) else (x0, y0) in
      let draw c :=
        if (x <? d) && (y <? d)
        then Ok (Pic (map (fun ab => ((nth x (fst ab) None, nth y (fst ab) None), (nth x (snd ab) None, nth y (snd ab) None))) segs) c)
        else Raise IndexError in
      if zloc then
        match z with
        | None => Raise AssertionError
        | Some z => if z <? d then draw (Some (map (fun ab => nth z (fst ab) None) segs)) else Raise IndexError
        end
      else draw (seg_scalars o)
  end.

(** [np.allclose(points[i, :], points[i, 0])] *)
Definition row_const (rows : list (list Q)) (i : nat) : bool :=
  let row := nth i rows [] in forallb (fun v => isclose (Some v) (Some (hd 0%Q row))) row.
Record dots := Dots { dots_x : list Q; dots_y : list Q; dots_c : option (list Q) }.
(** [scatter_2d], 1739-1752, for points given as rows of coordinates, at least one point. The error for colours without a third coordinate is a RuntimeError in the code. *)
Definition scatter_2d (rows : list (list Q)) (symdir : string) (flip zloc : bool) : res dots :=
  match xyzind (length rows) (row_const rows) symdir with
  | Raise e => Raise e
  | Ok (x0, y0, z) =>
      let '(x, y) := if flip then (y0, x0) else (x0, y0) in
      match nth_error rows x, nth_error rows y with
      | Some rx, Some ry =>
          if zloc then match z with None => Raise AssertionError | Some z => Ok (Dots rx ry (nth_error rows z)) end
          else Ok (Dots rx ry None)
      | _, _ => Raise IndexError
      end
  end.
