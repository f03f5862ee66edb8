(** Model of the colours of pieces of lines in [_prep_lines], viscid/plot/vpyplot.py 2056-2157: scalars of type u1, one row for each of the [w] components.

    SIMPLIFICATIONS: as in PrepModel; a byte is its value. *)
From Coq Require Import List ZArith QArith Qround Bool Arith.
From Verif Require LinesModel.
From Verif Require Import PrepModel.
Import ListNotations.
Local Open Scope nat_scope.

(** 2137: [scalars.round().astype('u1')] *)
Definition byte (x : Q) : Q := inject_Z (LinesModel.u1 (LinesModel.round_even x)).
(** [seg_colors]: [cols] are the colours of the points as prepare_lines gives them, [conns] its connections *)
Definition seg_colours (scipy : bool) (subsample : Q) (w : nat) (cols : list (list Q)) (conns : list (nat * nat)) : list (list cell) :=
  let nverts := length cols in
  let rows := map (fun j => map (fun c => nth j c 0%Q) cols) (seq 0 w) in
  let line_start := starts nverts conns in
  let lines := combine line_start (stops nverts line_start) in
  let per_line := map (fun ss => snd ss - fst ss) lines in
  let fine j := map (option_map byte) (flat_map (fun ss => fine_row scipy subsample j (slice (nth j rows []) ss)) lines) in
  let rows' := if Qle_bool subsample 0 then map (map Some) rows else map fine (seq 0 w) in
  let conns' := if Qle_bool subsample 0 then conns else flat_map (fine_conns subsample per_line) (seq 0 (length lines)) in
  map (fun ab => map (fun row => option_map (fun b => b / 255)%Q (nth (fst ab) row None)) rows') conns'.
