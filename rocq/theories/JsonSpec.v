(** What relaxed JSON is, said without the code: comments are cut, trailing white
    space of a line is cut, and a comma goes when the next thing that is not white
    space is a closing bracket. *)
From Coq Require Import List ZArith Bool Arith.
From Verif Require Import JsonModel.
Import ListNotations.
Local Open Scope Z_scope.

Section WithSpace.
Context (isspace : Z -> bool).

(** A newline is white space; commas and closing brackets are not. *)
Record space_ok : Prop := mkspace {
  sp_nl : isspace NL = true;
  sp_comma : isspace COMMA = false;
  sp_rbrace : isspace RBRACE = false;
  sp_rbracket : isspace RBRACKET = false }.

Definition closer (c : Z) : bool := (c =? RBRACE) || (c =? RBRACKET).

(** Whether the first thing in [s] that is not white space is a closing bracket. *)
Fixpoint next_closes (s : text) : bool :=
  match s with
  | [] => false
  | c :: s' => if isspace c then next_closes s' else closer c
  end.

(** Drop every comma that stands before a closing bracket. *)
Fixpoint drop_trailing_commas (s : text) : text :=
  match s with
  | [] => []
  | c :: s' => if (c =? COMMA) && next_closes s' then drop_trailing_commas s'
               else c :: drop_trailing_commas s'
  end.

(** A comment starts at a [#] or [//] that has an even number of double quotes and
    of single quotes before it on the line. *)
Definition marker (s : text) : bool :=
  match s with
  | c :: s' => (c =? HASH) ||
               ((c =? SLASH) && match s' with d :: _ => d =? SLASH | [] => false end)
  | [] => false
  end.
Fixpoint without_comment (dq sq : bool) (s : text) : text :=
  match s with
  | [] => []
  | c :: s' => if marker s && negb dq && negb sq then []
               else c :: without_comment (if c =? DQ then negb dq else dq)
                                         (if c =? SQ then negb sq else sq) s'
  end.

(** The lines without comments and without white space at their ends. *)
Definition bare_line (l : text) : text := rstrip isspace (without_comment false false l).
Definition relaxed (s : text) : text :=
  drop_trailing_commas (join_nl (map bare_line (split_nl s))).
End WithSpace.

(** [t] is [s] with some characters deleted. *)
Inductive deleted : text -> text -> Prop :=
| del_nil : deleted [] []
| del_keep : forall c s t, deleted s t -> deleted (c :: s) (c :: t)
| del_drop : forall c s t, deleted s t -> deleted (c :: s) t.

(** A line without a comment: every marker stands behind an odd number of double
    or of single quotes. *)
Definition no_comment (l : text) : Prop :=
  forall p, marker (skipn p l) = true ->
    Nat.odd (count DQ (firstn p l)) = true \/ Nat.odd (count SQ (firstn p l)) = true.

(** No comma is followed, white space aside, by a closing bracket. *)
Definition no_trailing_comma (isspace : Z -> bool) (s : text) : Prop :=
  forall a w c b, s = a ++ COMMA :: w ++ c :: b ->
    (forall x, In x w -> isspace x = true) -> closer c = false.
