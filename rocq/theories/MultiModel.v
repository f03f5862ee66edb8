(** Model of viscid/multiplot.py: [make_multiplot] (15-63) and what [_do_multiplot] (65-183) hands to the plotting functions, in one process (parallel.py 217-219).

    SIMPLIFICATIONS: the times of the file are a list of any things; the title, the size of the figure, its margins and options of a variable other than plot_opts are left out;
    each variable has a dict of its own; plot_opts that are absent and plot_opts that are None are one thing (None), as they only meet when there are no global options. Blanks are spaces. *)
From Coq Require Import Ascii List Bool Arith.
Import ListNotations.

Definition text := list ascii.
Definition is (c d : ascii) : bool := if ascii_dec c d then true else false.
(* s.split(',') *)
Fixpoint split (s : text) : list text :=
  match s with
  | [] => [[]]
  | c :: r => if is c ","%char then [] :: split r else match split r with w :: ws => (c :: w) :: ws | [] => [[c]] end
  end.
(* ','.join(ws) *)
Fixpoint join (ws : list text) : text := match ws with [] => [] | [w] => w | w :: r => w ++ ","%char :: join r end.
(* startswith('^'), lstrip('^') *)
Definition same_axis (s : text) : bool := match s with c :: _ => is c "^"%char | [] => false end.
Fixpoint lstrip (s : text) : text := match s with c :: r => if is c "^"%char then lstrip r else s | [] => [] end.
(* 114-134; the slice None: Ellipsis *)
Definition name_and_slice (selection : option text) (s : text) : text * option text :=
  let parts := split (lstrip s) in
  let first := hd [] parts in
  let '(name, slc) := if existsb (fun c => is c "="%char) first then (join parts, []) else (first, join (tl parts)) in
  let slc := match selection with None => slc | Some sel => match slc with [] => sel | _ => join [slc; sel] end end in
  (name, if forallb (fun c => is c " "%char) slc then None else Some slc).
(* 149-153 *)
Definition options (global own : option text) : option text :=
  match own, global with
  | None, g => g
  | Some o, Some g => Some (join [o; g])
  | Some o, None => Some o
  end.
(* one call of vlt.plot, and the subplot (144-146) it is drawn in *)
Record draw := Draw { d_shape : nat * nat; d_place : nat * nat; d_name : text; d_slice : option text; d_opts : option text }.
Definition turn (transpose : bool) (p : nat * nat) : nat * nat := if transpose then (snd p, fst p) else p.
Definition rows (vars : list (text * option text)) : nat := length (filter (fun v => negb (same_axis (fst v))) vars).
(* 106-158; [next]: this_row + 1; the calls, and the variables with the options they are left with *)
Fixpoint plot_vars (transpose : bool) (n : nat) (global sel : option text) (next : nat) (vars : list (text * option text)) : option (list draw * list (text * option text)) :=
  match vars with
  | [] => Some ([], [])
  | (s, own) :: r =>
      let next := if same_axis s then next else S next in
      match next with
      | O => None                                                                                     (* 138: ValueError *)
      | S row =>
          let '(name, slc) := name_and_slice sel s in
          let o := options global own in
          match plot_vars transpose n global sel next r with
          | Some (ds, vs) => Some (Draw (turn transpose (n, 1)) (turn transpose (row, 0)) name slc o :: ds, (s, o) :: vs)
          | None => None
          end
      end
  end.
(* 90-183; a picture is saved (178) unless there is nothing to plot (96-98) *)
Definition do_multiplot (transpose : bool) (global sel : option text) (vars : list (text * option text)) : option (option (list draw) * list (text * option text)) :=
  if (rows vars =? 0)%nat then Some (None, vars)
  else match plot_vars transpose (rows vars) global sel 0 vars with Some (ds, vs) => Some (Some ds, vs) | None => None end.
(* a picture: the number in the name of the file (179), the time, the calls *)
Record picture {T : Type} := Picture { p_number : nat; p_time : T; p_draws : list draw }.
Arguments picture : clear implicits.
Fixpoint series {T} (transpose : bool) (global sel : option text) (tind : nat) (times : list T) (vars : list (text * option text)) : option (list (picture T)) :=
  match times with
  | [] => Some []
  | t :: r => match do_multiplot transpose global sel vars with
              | None => None
              | Some (ds, vs) => match series transpose global sel (S tind) r vs with
                                 | None => None
                                 | Some ps => Some (match ds with Some ds => Picture T (tind + 1) t ds :: ps | None => ps end)
                                 end
              end
  end.
(* 40-63; None: ValueError (43) or UnboundLocalError (62, with subplot_params the name r has no value) *)
Definition make_multiplot {T} (subplot_params transpose : bool) (global sel : option text) (times : list T) (vars : list (text * option text)) : option (list (picture T)) :=
  match times with
  | [] => None
  | _ => if subplot_params then None else series transpose global sel 0 times vars
  end.
