(** What the sanitising of an equation is supposed to guarantee. *)
From Coq Require Import List ZArith Bool Arith.
From Verif Require Import EvalModel.
Import ListNotations.
Local Open Scope Z_scope.

(** two underscores in a row *)
Definition has_dunder (t : text) : Prop := exists a b, t = a ++ US :: US :: b.

(** the text an effect carries *)
Definition effect_text (e : effect) : text :=
  match e with GetField n => n | HasAttr n => n | NumExpr t => t | Eval t => t end.

(** [r] stands in [t] between [a] and [b] as a whole word *)
Definition ends_in_word (word : Z -> bool) (a : text) : Prop :=
  exists a' c, a = a' ++ [c] /\ word c = true.
Definition starts_with_word (word : Z -> bool) (b : text) : Prop :=
  exists c b', b = c :: b' /\ word c = true.
Definition whole_word (word : Z -> bool) (t a r b : text) : Prop :=
  t = a ++ r ++ b /\ r <> [] /\ Forall (fun c => word c = true) r /\
  ~ ends_in_word word a /\ ~ starts_with_word word b.

(** an opening parenthesis follows, white space aside *)
Definition is_call (isspace : Z -> bool) (b : text) : Prop :=
  exists w b', b = w ++ LPAREN :: b' /\ Forall (fun c => isspace c = true) w.

(** [n] is used in [t] as the name of a variable *)
Definition variable_in (word isspace : Z -> bool) (t n : text) : Prop :=
  ident n = true /\ exists a b, whole_word word t a n b /\ ~ is_call isspace b.

(** Python's character classes: identifier characters are word characters;
    parentheses and white space are not; parentheses are not white space. *)
Record classes_ok (word isspace : Z -> bool) : Prop := mkclasses {
  cl_word : forall c, id_cont c = true -> word c = true;
  cl_paren : word LPAREN = false;
  cl_paren_space : isspace LPAREN = false;
  cl_space : forall c, isspace c = true -> word c = false }.

Definition no_quotes (t : text) : Prop := ~ In DQ t /\ ~ In SQ t.
