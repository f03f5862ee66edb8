(** Model of the conversion of fields to tables and back: viscid/grid.py [Grid.to_dataframe] (141-183), viscid/dataset.py [to_dataframe] of datasets (308-332,
    614-638) and [from_dataframe] (72-152).

    A pandas table is the list of its row labels and the list of its columns; [None] is an exception.  SIMPLIFICATIONS: column names are numbers, 0 is the
    time; the entries are of any type with an equality test ([x - y != 0] is "not equal"); data are in the order of [reshape(-1)].  Tables with different
    columns are not joined (pandas fills them up); the date column is treated apart; the selection is the whole field. *)
From Coq Require Import List Bool Arith ZArith QArith.
Import ListNotations.

Definition TIME : nat := O.
Record frame (V : Type) := FR { fr_labels : list nat; fr_cols : list (nat * list V) }.
Arguments FR {V} _ _. Arguments fr_labels {V} _. Arguments fr_cols {V} _.
(* a grid: its time, the axes of its fields, the data of its fields *)
Record grid (V : Type) := GR { g_time : V; g_crds : list (nat * list V); g_flds : list (nat * list V) }.
Arguments GR {V} _ _ _. Arguments g_time {V} _. Arguments g_crds {V} _. Arguments g_flds {V} _.

Section FRAME.
Context {V : Type}.
Variable veqb : V -> V -> bool.
Variable zero : V.

(** ** to a table *)
(* grid.py 167-169: the rows of np.meshgrid(..., indexing='ij') *)
Fixpoint mesh_rows (axs : list (list V)) : list (list V) :=
  match axs with
  | [] => [[]]
  | x :: r => flat_map (fun v => map (cons v) (mesh_rows r)) x
  end.
Definition mesh_col (axs : list (list V)) (j : nat) : list V := map (fun row => nth j row zero) (mesh_rows axs).
(* frame[name] = col *)
Fixpoint set_col (name : nat) (col : list V) (cols : list (nat * list V)) : list (nat * list V) :=
  match cols with
  | [] => [(name, col)]
  | (k, c) :: r => if (k =? name)%nat then (k, col) :: r else (k, c) :: set_col name col r
  end.
(* 181-182: a column of another length is refused *)
Fixpoint add_fields (n : nat) (flds : list (nat * list V)) (cols : list (nat * list V)) : option (list (nat * list V)) :=
  match flds with
  | [] => Some cols
  | (name, d) :: r => if (length d =? n)%nat then add_fields n r (set_col name d cols) else None
  end.
(* 141-183 *)
Definition grid_to_frame (g : grid V) : option (frame V) :=
  match g_flds g with
  | [] => Some (FR [] [])
  | _ =>
      let axs := map snd (g_crds g) in
      let n := length (mesh_rows axs) in
      let mesh := map (fun p => (fst (snd p), mesh_col axs (fst p))) (combine (seq 0 (length (g_crds g))) (g_crds g)) in
      let cols := fold_left (fun acc p => set_col (fst p) (snd p) acc) mesh [] in
      if existsb (fun p => (fst p =? TIME)%nat) cols then None                                       (* 172: insert refuses a name that is there *)
      else option_map (FR (seq 0 n)) (add_fields n (g_flds g) ((TIME, repeat (g_time g) n) :: cols))
  end.
Fixpoint eq_names (a b : list nat) : bool :=
  match a, b with [], [] => true | x :: a', y :: b' => (x =? y)%nat && eq_names a' b' | _, _ => false end.
(* pandas.concat(frames, ignore_index=True) *)
Fixpoint join (a b : list (nat * list V)) : list (nat * list V) :=
  match a, b with (k, x) :: a', (_, y) :: b' => (k, x ++ y) :: join a' b' | _, _ => [] end.
Fixpoint concat_cols (fs : list (list (nat * list V))) : option (list (nat * list V)) :=
  match fs with
  | [] => None
  | [f] => Some f
  | f :: r => match concat_cols r with
              | Some c => if eq_names (map fst f) (map fst c) then Some (join f c) else None
              | None => None
              end
  end.
Fixpoint all_frames (gs : list (grid V)) : option (list (frame V)) :=
  match gs with
  | [] => Some []
  | g :: r => match grid_to_frame g, all_frames r with Some f, Some fs => Some (f :: fs) | _, _ => None end
  end.
(* dataset.py 324-332, 630-638 *)
Definition to_frame (gs : list (grid V)) : option (frame V) :=
  match all_frames gs with
  | None => None
  | Some fs => match concat_cols (map fr_cols fs) with
               | Some cols => Some (FR (seq 0 (fold_right Nat.add O (map (fun f => length (fr_labels f)) fs))) cols)
               | None => None
               end
  end.

(** ** from a table *)
Fixpoint get_col (name : nat) (cols : list (nat * list V)) : option (list V) :=
  match cols with [] => None | (k, c) :: r => if (k =? name)%nat then Some c else get_col name r end.
(* drop_duplicates, with the labels of the rows that stay *)
Fixpoint uniq (l : list (nat * V)) : list (nat * V) :=
  match l with [] => [] | p :: r => p :: filter (fun q => negb (veqb (snd p) (snd q))) (uniq r) end.
Fixpoint label_of (k : nat) (l : list (nat * V)) : option V :=
  match l with [] => None | (a, v) :: r => if (a =? k)%nat then Some v else label_of k r end.
(* frame[frame[col] == v][name] *)
Definition rows_where (mask : list bool) (col : list V) : list V := map snd (filter fst (combine mask col)).
(* dataset.py 110-119; the columns are those of the rows of the first time, without the times *)
Fixpoint find_crds (cols : list (nat * list V)) : list nat :=
  match cols with
  | [] => []
  | (k, c) :: r => match c with
                   | a :: b :: _ => if veqb a b then k :: find_crds r else [k]
                   | _ => [k]
                   end
  end.
Fixpoint all_cols (names : list nat) (cols : list (nat * list V)) : option (list (nat * list V)) :=
  match names with
  | [] => Some []
  | k :: r => match get_col k cols, all_cols r cols with Some c, Some cs => Some ((k, c) :: cs) | _, _ => None end
  end.
Definition col_uniq (labels : list nat) (c : list V) : list V := map snd (uniq (combine labels c)).
Definition in_names (names : list nat) (k : nat) : bool := existsb (Nat.eqb k) names.
(* 137-140 *)
Fixpoint reshape_all (n : nat) (flds : list (nat * list V)) : option (list (nat * list V)) :=
  match flds with
  | [] => Some []
  | (k, d) :: r => if (length d =? n)%nat then option_map (cons (k, d)) (reshape_all n r) else None
  end.
Fixpoint grids_of (times : list V) (tcol : option (list V)) (crds flds : list (nat * list V)) (n : nat) : option (list (grid V)) :=
  match times with
  | [] => Some []
  | t :: r =>
      let pick := match tcol with Some tc => rows_where (map (fun v => veqb v t) tc) | None => fun c => c end in
      match reshape_all n (map (fun p => (fst p, pick (snd p))) flds), grids_of r tcol crds flds n with
      | Some fl, Some gs => Some (GR t crds fl :: gs)
      | _, _ => None
      end
  end.
(* 72-152 *)
Definition from_frame (fr : frame V) (crd_cols : option (list nat)) : option (list (grid V)) :=
  let cols := fr_cols fr in
  let tcol := get_col TIME cols in
  let found := match tcol with
               | Some tc => let u := uniq (combine (fr_labels fr) tc) in
                            match label_of 0 u with Some t0 => Some (map snd u, t0) | None => None end     (* 104: unique_times[0] is by label *)
               | None => None
               end in
  let times := match found with Some (ts, _) => ts | None => [zero] end in
  let pick0 := match found, tcol with Some (_, t0), Some tc => rows_where (map (fun v => veqb v t0) tc) | _, _ => fun c => c end in
  let rest := filter (fun p => negb (fst p =? TIME)%nat) cols in
  let names := match crd_cols with
               | Some l => Some l
               | None => let cols0 := map (fun p => (fst p, pick0 (snd p))) rest in
                         match cols0 with
                         | (_, _ :: _ :: _) :: _ => Some (find_crds cols0)
                         | _ => None                                                                  (* 112-113 *)
                         end
               end in
  match names with
  | None => None
  | Some nm =>
      match all_cols nm cols with
      | None => None
      | Some cc =>
          let crds := map (fun p => (fst p, col_uniq (fr_labels fr) (snd p))) cc in                     (* 122 *)
          let flds := filter (fun p => negb (in_names nm (fst p))) rest in                            (* 126-129 *)
          grids_of times tcol crds flds (fold_right Nat.mul 1%nat (map (fun p => length (snd p)) crds))
      end
  end.
End FRAME.

(** ** the base of the times *)
Local Open Scope Q_scope.
(* 92-102; [named]: the column is called datetime, the name that is looked for; times in seconds, dates in microseconds *)
Definition base_of (named : bool) (times dates : list Q) : option Q :=
  if named then
    match times, dates with
    | t0 :: t1 :: _, d0 :: d1 :: _ => Some (d0 - t0 * ((d1 - d0) / (t1 - t0)))
    | [t0], d0 :: _ => Some (d0 - 1000000 * t0)
    | _, _ => None
    end
  else None.
