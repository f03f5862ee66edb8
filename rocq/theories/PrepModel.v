(** Model of [_prep_lines], viscid/plot/vpyplot.py 2056-2158: what plot_lines and plot2d_lines draw.

    SIMPLIFICATIONS: numbers are exact; both kinds of interpolation are 'linear'; colours (scalars of type u1, 2134-2138 and 2152-2155) are not modelled, only one number for each point or none; an array is a list of its rows.
    A number that np.empty left as it was in memory is [None]. *)
From Coq Require Import List ZArith QArith Qround Bool Arith.
From Verif Require LinesModel ResampleModel.
Import ListNotations.
Local Open Scope nat_scope.

Definition cell := option Q.
Record drawn := D {
  verts : list (list cell);                      (* a row for each coordinate *)
  segments : list (list cell * list cell);
  vert_scalars : option (list cell);
  seg_scalars : option (list cell) }.

(** [np.setdiff1d(np.arange(nverts), connections[:, 1], assume_unique=True)], 2064-2065: the points no segment ends in *)
Definition starts (nverts : nat) (conns : list (nat * nat)) : list nat :=
  filter (fun k => negb (existsb (Nat.eqb k) (map snd conns))) (seq 0 nverts).
(** 2066: [np.concatenate([line_start[1:], [nverts]])] *)
Definition stops (nverts : nat) (line_start : list nat) : list nat := tl line_start ++ [nverts].
(** [row[start:stop]] *)
Definition slice {A} (row : list A) (ss : nat * nat) : list A := firstn (snd ss - fst ss) (skipn (fst ss) row).
(** 2084, 2123: [ceil(subsample * (n - 1)) + 1] *)
Definition n_fine (subsample : Q) (n : nat) : nat := Z.to_nat (Qceiling (subsample * inject_Z (Z.of_nat n - 1)) + 1).
(** 2093-2121: a row of one line at the finer points. With scipy, interp1d does not take a line of one point: the exception comes at the first row, so that only this row ([j] = 0) is copied, the others stay as np.empty made them. Without scipy np.interp is used. *)
Definition fine_row (scipy : bool) (subsample : Q) (j : nat) (coarse : list Q) : list cell :=
  if scipy && (length coarse =? 1) then (if j =? 0 then map Some coarse else repeat None (n_fine subsample 1))
  else map Some (map (fun s => ResampleModel.interp s (ResampleModel.linspace01 (length coarse)) coarse)
                     (ResampleModel.linspace01 (n_fine subsample (length coarse)))).
(** 2123-2127: the segments of line [i] *)
Definition fine_conns (subsample : Q) (verts_per_line : list nat) (i : nat) : list (nat * nat) :=
  let n := n_fine subsample (nth i verts_per_line 0) in
  let new_start := list_sum (map (n_fine subsample) (firstn i verts_per_line)) in
  let new_stop := new_start + n in
  combine (seq new_start (new_stop - 1 - new_start)) (seq (new_start + 1) (new_stop - (new_start + 1))).
(** 2140-2157 *)
Definition finish (vrows : list (list cell)) (srow : option (list cell)) (conns : list (nat * nat)) : drawn :=
  D vrows
    (map (fun ab => (map (fun row => nth (fst ab) row None) vrows, map (fun row => nth (snd ab) row None) vrows)) conns)
    srow
    (option_map (fun row => map (fun ab => nth (fst ab) row None) conns) srow).
(** 2060-2157, from what [prepare_lines] gives: [d] is nr_sdims; [None] is an assertion that fails (or colours) *)
Definition prep (scipy : bool) (subsample : Q) (d : nat) (points : list (list Q)) (scalars : option (list Q))
  (conns : list (nat * nat)) : option drawn :=
  let nverts := length points in
  let rows := map (fun j => map (fun p => nth j p 0%Q) points) (seq 0 d) in
  let line_start := starts nverts conns in
  let lines := combine line_start (stops nverts line_start) in
  let per_line := map (fun ss => snd ss - fst ss) lines in
  if negb (nverts =? length line_start + length conns) then None
  else if Qle_bool subsample 0 then Some (finish (map (map Some) rows) (option_map (map Some) scalars) conns)
  else
    let fine j row := flat_map (fun ss => fine_row scipy subsample j (slice row ss)) lines in
    let vrows := map (fun j => fine j (nth j rows [])) (seq 0 d) in
    let conns' := flat_map (fine_conns subsample per_line) (seq 0 (length lines)) in
    let nverts' := list_sum (map (n_fine subsample) per_line) in
    if negb (length conns' =? nverts' - length line_start) then None
    else Some (finish vrows (option_map (fine 0) scalars) conns').
Definition prep_lines (scipy : bool) (subsample : Q) (lines : list (list (list Q))) (rows : nat) (sc : LinesModel.scalars_in)
  : option drawn :=
  match LinesModel.prepare_lines lines rows sc true [] with
  | LinesModel.Err _ => None
  | LinesModel.Ok r =>
      match LinesModel.connections r with
      | None => None
      | Some conns =>
          match LinesModel.scalars r with
          | LinesModel.ONone => prep scipy subsample (Nat.min 3 rows) (LinesModel.vertices r) None conns
          | LinesModel.OScal s => prep scipy subsample (Nat.min 3 rows) (LinesModel.vertices r) (Some s) conns
          | LinesModel.ORgb _ => None
          end
      end
  end.
