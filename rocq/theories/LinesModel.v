(** Model of viscid/vutil.py [prepare_lines] (290-490).

    Simplifications: numbers are exact rationals (so the cast of integer vertices at
    344-345 is not visible); colours given as strings (361-366 and the hex branch
    423-440) and scalars given as a Field (354-360) are not modelled; [other] is a
    list of named arrays. *)
From Coq Require Import List ZArith QArith Qround Bool Arith.
Import ListNotations.
Local Open Scope nat_scope.

(** a two-dimensional array, row by row *)
Record mat (A : Type) := M { nr : nat; nc : nat; dat : list A }.
Arguments M {A}. Arguments nr {A}. Arguments nc {A}. Arguments dat {A}.

Inductive err := ValueE | TypeE.
Inductive result A := Ok (a : A) | Err (e : err).
Arguments Ok {A}. Arguments Err {A}.

(** element [i, j]; the default is never used when i and j are in range *)
Definition at_ (m : mat Q) (i j : nat) : Q := nth (i * nc m + j) (dat m) 0%Q.
Definition shape_is {A} (m : mat A) (r c : nat) : bool := (nr m =? r) && (nc m =? c).
(** [m.T] *)
Definition transpose (m : mat Q) : mat Q :=
  M (nc m) (nr m) (flat_map (fun j => map (fun i => at_ m i j) (seq 0 (nr m))) (seq 0 (nc m))).

(** A line is the list of its points, i.e. of the columns of the array. *)
Notation line := (list (list Q)).

(** [scalars[i].repeat(ni) for i, ni in enumerate(npts)] and concatenate: 389-390, 463-464 *)
Fixpoint repeat_each (xs : list Q) (npts : list nat) : list Q :=
  match npts, xs with
  | [], _ => []
  | n :: npts', x :: xs' => repeat x n ++ repeat_each xs' npts'
  | n :: npts', [] => []
  end.

(** what the caller may pass as scalars: an ndarray (already two-dimensional, as after
    [np.atleast_2d], 376), a list of numbers or of rows, or a tuple of them *)
Inductive scalars_in :=
| SNone
| SArr (m : mat Q)
| SList (rows : list (list Q))
| STuple (rows : list (list Q)).

(** vutil.py 361-376: rows become arrays with one row each and are stacked, or joined
    if their lengths differ; a tuple cannot be assigned to *)
Definition as_matrix (s : scalars_in) : result (option (mat Q)) :=
  match s with
  | SNone => Ok None
  | SArr m => Ok (Some m)
  | SList [] => Err ValueE
  | SList (r :: rs) =>
      if forallb (fun r' => length r' =? length r) rs
      then Ok (Some (M (S (length rs)) (length r) (concat (r :: rs))))
      else Ok (Some (M 1 (length (concat (r :: rs))) (concat (r :: rs))))
  | STuple [] => Err ValueE
  | STuple (_ :: _) => Err TypeE
  end.

(** [m.reshape(-1, N)] *)
Definition reshape_N (N : nat) (m : mat Q) : result (mat Q) :=
  let size := nr m * nc m in
  if N =? 0 then Err ValueE
  else if size mod N =? 0 then Ok (M (size / N) N (dat m)) else Err ValueE.

(** vutil.py 383-421 *)
Definition broadcast (npts : list nat) (N : nat) (m : mat Q) : result (mat Q) :=
  let nl := length npts in
  if shape_is m 1 1 then Ok (M 1 N (repeat (at_ m 0 0) N))
  else if shape_is m 1 nl || shape_is m nl 1 then
    Ok (M 1 N (repeat_each (dat m) npts))
  else if shape_is m N 1 || shape_is m 1 N then Ok (M 1 N (dat m))
  else if shape_is m 3 nl || shape_is m nl 3 || shape_is m 4 nl || shape_is m nl 4 then
    let m' := if (shape_is m 3 nl || shape_is m 4 nl) && negb (shape_is m 3 3 || shape_is m 4 4)
              then transpose m else m in
    Ok (M (nc m') N
          (flat_map (fun c => repeat_each (map (fun i => at_ m' i c) (seq 0 nl)) npts) (seq 0 (nc m'))))
  else if shape_is m 3 N || shape_is m N 3 || shape_is m 4 N || shape_is m N 4 then
    Ok (if (shape_is m 3 N || shape_is m 4 N) && negb (shape_is m 3 3 || shape_is m 4 4)
        then transpose m else m)
  else if shape_is m 1 3 || shape_is m 3 1 || shape_is m 1 4 || shape_is m 4 1 then
    Ok (M (nr m * nc m) N (flat_map (fun x => repeat x N) (dat m)))
  else reshape_N N m.

(** numpy's round: half to even; [astype('u1')] keeps the lowest eight bits *)
Definition round_even (x : Q) : Z :=
  let f := Qfloor x in
  match Qcompare (x - inject_Z f) (1 # 2) with
  | Lt => f
  | Gt => (f + 1)%Z
  | Eq => if Z.even f then f else (f + 1)%Z
  end.
Definition u1 (z : Z) : Z := (z mod 256)%Z.

Inductive scalars_out :=
| ONone
| OScal (s : list Q)            (* one number for each point *)
| ORgb (m : mat Z).             (* one colour for each column *)

(** vutil.py 441-460 *)
Definition finish (m : mat Q) : result scalars_out :=
  if nr m =? 1 then Ok (OScal (dat m))
  else if (nr m =? 3) || (nr m =? 4) then
    if forallb (fun x => Qle_bool 0 x && Qle_bool x 1) (dat m)
    then Ok (ORgb (M (nr m) (nc m) (map (fun x => u1 (round_even (inject_Z 255 * x))) (dat m))))
    else if forallb (fun x => Qle_bool 0 x && negb (Qle_bool (inject_Z 256) x)) (dat m)
    then Ok (ORgb (M (nr m) (nc m) (map (fun x => u1 (round_even x)) (dat m))))
    else Err ValueE
  else Err ValueE.

(** vutil.py 352-460 *)
Definition prepare_scalars (npts : list nat) (N : nat) (s : option (mat Q)) : result scalars_out :=
  match s with
  | None => Ok ONone
  | Some m => match broadcast npts N m with
              | Err e => Err e
              | Ok m' => finish m'
              end
  end.

(** vutil.py 463-476: a reshape that fails is only warned about; the array stays *)
Definition prepare_other1 (npts : list nat) (N : nat) (m : mat Q) : mat Q :=
  let nl := length npts in
  if shape_is m 1 nl || shape_is m nl 1 then M 1 N (repeat_each (dat m) npts)
  else match reshape_N N m with Ok m' => m' | Err _ => m end.

(** [first_idx = np.cumsum([0] + npts[:-1])], 341 *)
Fixpoint offsets (from : nat) (npts : list nat) : list nat :=
  match npts with [] => [] | n :: npts' => from :: offsets (from + n) npts' end.
(** vutil.py 478-485: [np.arange(i0, i0 + ni - 1.5)] are the [ni - 1] numbers from [i0];
    [np.arange(i0 + 1, i0 + ni - 0.5)] those from [i0 + 1] (none for lines of 0 or 1
    points, as both stops are then below the start) *)
Definition connect1 (i0 ni : nat) : list (nat * nat) :=
  combine (seq i0 (ni - 1)) (seq (i0 + 1) (ni - 1)).
Fixpoint connect (offs npts : list nat) : list (nat * nat) :=
  match offs, npts with
  | i0 :: offs', ni :: npts' => connect1 i0 ni ++ connect offs' npts'
  | _, _ => []
  end.

Record prepared := P {
  vertices : list (list Q);            (* the points *)
  scalars : scalars_out;
  connections : option (list (nat * nat));
  others : list (nat * mat Q) }.

(** vutil.py 338-351: [rows] is the number of rows of the first line (all lines must
    have the same); rows beyond the third become the scalars *)
Definition prepare_lines (lines : list line) (rows : nat) (sc : scalars_in) (do_connections : bool)
  (other : list (nat * mat Q)) : result prepared :=
  match lines with
  | [] => Err ValueE
  | _ =>
    if negb (forallb (forallb (fun p => length p =? rows)) lines) then Err ValueE
    else
      let npts := map (@length (list Q)) lines in
      let N := list_sum npts in
      let pts := concat lines in
      match as_matrix sc with
      | Err e => Err e
      | Ok given =>
          let s := match given with
                   | Some m => Some m
                   | None => if 3 <? rows
                             then Some (M (rows - 3) N
                                        (flat_map (fun c => map (fun p => nth c p 0%Q) pts) (seq 3 (rows - 3))))
                             else None
                   end in
          match prepare_scalars npts N s with
          | Err e => Err e
          | Ok so =>
              Ok (P (map (firstn 3) pts) so
                    (if do_connections then Some (connect (offsets 0 npts) npts) else None)
                    (map (fun kv => (fst kv, prepare_other1 npts N (snd kv))) other))
          end
      end
  end.
