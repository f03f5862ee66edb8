(** Specification for C10, independent of how fill_nd_sel_list works.

    An entry is an optional axis name and an item.  Entries that are not newaxis
    select an axis: a named entry selects the axis it names, an unnamed one selects
    the axis after the furthest axis reached so far. *)
From Verif Require Export NdSelModel.

(** position of a name among the axes *)
Fixpoint pos (n : nm) (ax : list nm) : nat :=
  match ax with [] => 0 | a :: ax' => if nm_eqb n a then 0 else S (pos n ax') end.

(** number of leading axes reached by a list of entries *)
Definition cursor (ax : list nm) (es : list ent) : nat :=
  fold_left (fun c e => match e with
                        | (_, INew) => c
                        | (None, _) => S c
                        | (Some n, _) => Nat.max c (S (pos n ax))
                        end) es 0.

(** the axis selected by entry [e] that comes after the entries [before] *)
Definition target (ax : list nm) (before : list ent) (e : ent) : nat :=
  match fst e with None => cursor ax before | Some n => pos n ax end.

(** newaxis entries, and the unnamed ones among them *)
Definition nnew (es : list ent) : nat := length (filter (fun e => is_new (snd e)) es).
Definition nanon (es : list ent) : nat :=
  length (filter (fun e => is_new (snd e) && match fst e with None => true | Some _ => false end) es).
(** the name a newaxis entry gets: its own, or "new-x<i>" *)
Definition newname (before : list ent) (name : option nm) : nm :=
  match name with Some n => n | None => NNew (nanon before) end.

(** the existing axes of a result *)
Definition axes (l : list out) : list out := filter (fun o => negb (o_new o)) l.

(** A selection is legal for the axes when no selector falls off the end, names
    exist, no axis that has a selector (other than the whole axis) is selected
    again, and named new axes have new names. *)
Definition legal (ax : list nm) (es : list ent) : Prop :=
  forall before name s after, es = before ++ (name, s) :: after ->
    match s, name with
    | INew, None => True
    | INew, Some n => ~ In n ax /\
        forall b1 nm1 b2, before = b1 ++ (nm1, INew) :: b2 -> newname b1 nm1 <> n
    | _, None => cursor ax before < length ax
    | _, Some n => In n ax /\
        forall b1 e b2, before = b1 ++ e :: b2 -> is_new (snd e) = false ->
          target ax b1 e = pos n ax -> snd e = IFull
    end.

(** What a result must be: all axes, each once, in order; each selector on the axis
    it selects; all other axes whole; each newaxis in its place. *)
Record meets (ax : list nm) (es : list ent) (l : list out) : Prop := {
  all_axes_in_order : map o_name (axes l) = ax;
  selectors_on_target : forall before e after, es = before ++ e :: after ->
    is_new (snd e) = false -> snd e <> IFull ->
    exists o, nth_error (axes l) (target ax before e) = Some o /\ o_item o = snd e;
  others_whole : forall k o, nth_error (axes l) k = Some o -> o_item o <> IFull ->
    exists before e after, es = before ++ e :: after /\ is_new (snd e) = false /\
      target ax before e = k /\ snd e = o_item o;
  newaxes_in_place : forall before name after, es = before ++ (name, INew) :: after ->
    nth_error l (cursor ax before + nnew before) = Some (newname before name, INew, true);
  no_other_newaxes : length l = length ax + nnew es
}.
