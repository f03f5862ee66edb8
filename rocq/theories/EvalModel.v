(** Model of viscid/calculator/evaluator.py: how the text of an equation is turned
    into the text given to [eval] or numexpr, and what is looked up on the way.

    A text is a list of code points.  [word] is the class [\w] and [isspace] the
    class [\s] of Python's [re] for text; both are parameters.

    The regular expressions of lines 95-96 and 139-140 only match whole maximal
    runs of word characters, because they are enclosed in [\b]: inside a run there is
    no boundary, so backtracking inside [[_a-zA-Z0-9]*] never helps.  The text is
    therefore cut into runs of word characters and single other characters. *)
From Coq Require Import List ZArith Bool Arith.
Import ListNotations.
Local Open Scope Z_scope.

Notation text := (list Z).
Definition US := 95.      (* underscore *)
Definition DQ := 34.
Definition SQ := 39.
Definition LPAREN := 40.
(** lines 94, 138 *)
Definition SALT : text := [83; 65; 76; 84].

(** [_A-Za-z] and [_a-zA-Z0-9] *)
Definition id_start (c : Z) : bool :=
  (c =? US) || ((65 <=? c) && (c <=? 90)) || ((97 <=? c) && (c <=? 122)).
Definition id_cont (c : Z) : bool := id_start c || ((48 <=? c) && (c <=? 57)).
(** [[_A-Za-z][_a-zA-Z0-9]*] matches the whole of a run *)
Definition ident (r : text) : bool :=
  match r with
  | [] => false
  | c :: r' => id_start c && forallb id_cont r'
  end.

(** lines 99, 143: [eqn.replace('__', '')] *)
Fixpoint strip2 (s : text) : text :=
  match s with
  | c :: ((d :: r) as t) => if (c =? US) && (d =? US) then strip2 r else c :: strip2 t
  | _ => s
  end.

Inductive tok := W (r : text) | C (c : Z).

Section Classes.
Context (word isspace : Z -> bool).

Fixpoint toks (s : text) : list tok :=
  match s with
  | [] => []
  | c :: s' =>
      if word c then match toks s' with
                     | W r :: ts => W (c :: r) :: ts
                     | ts => W [c] :: ts
                     end
      else C c :: toks s'
  end.
Definition untok (t : tok) : text := match t with W r => r | C c => [c] end.
Definition untoks (ts : list tok) : text := flat_map untok ts.

(** [\s*\(] matches here *)
Fixpoint called (ts : list tok) : bool :=
  match ts with
  | C c :: ts' => if isspace c then called ts' else c =? LPAREN
  | _ => false
  end.
(** the text after a match of [\s*\(] *)
Fixpoint after_paren (ts : list tok) : list tok :=
  match ts with
  | C c :: ts' => if isspace c then after_paren ts' else ts'
  | _ => ts
  end.

(** lines 103-116, numexpr: the salted text, and the symbols in the order of the
    calls of [var_salter] *)
Fixpoint vars_ne (ts : list tok) : text :=
  match ts with
  | [] => []
  | W r :: ts' => (if ident r && negb (called ts') then SALT ++ r else r) ++ vars_ne ts'
  | C c :: ts' => c :: vars_ne ts'
  end.
Fixpoint syms_ne (ts : list tok) : list text :=
  match ts with
  | [] => []
  | W r :: ts' => if ident r && negb (called ts') then r :: syms_ne ts' else syms_ne ts'
  | C c :: ts' => syms_ne ts'
  end.

Definition quote (c : Z) : bool := (c =? DQ) || (c =? SQ).

(** lines 146-156, numpy: the symbol includes a quote directly before it; symbols
    after an apostrophe stay as they are *)
Fixpoint vars_np (ts : list tok) : text :=
  match ts with
  | [] => []
  | W r :: ts' => (if ident r && negb (called ts') then SALT ++ r else r) ++ vars_np ts'
  | C c :: t1 =>
      match t1 with
      | W r :: ts' =>
          if quote c && ident r && negb (called ts')
          then (if c =? SQ then c :: r else SALT ++ c :: r) ++ vars_np ts'
          else c :: vars_np t1
      | _ => c :: vars_np t1
      end
  end.
Fixpoint syms_np (ts : list tok) : list text :=
  match ts with
  | [] => []
  | W r :: ts' => if ident r && negb (called ts') then r :: syms_np ts' else syms_np ts'
  | C c :: t1 =>
      match t1 with
      | W r :: ts' =>
          if quote c && ident r && negb (called ts')
          then if c =? SQ then syms_np ts' else (c :: r) :: syms_np ts'
          else syms_np t1
      | _ => syms_np t1
      end
  end.

(** lines 159-169: function names; the white space before the parenthesis goes.
    The second argument counts the tokens already consumed as part of a match. *)
Fixpoint spaces (ts : list tok) : nat :=
  match ts with
  | C c :: ts' => if isspace c then S (spaces ts') else 1%nat
  | _ => O
  end.
Fixpoint funcs (skip : nat) (ts : list tok) : text :=
  match ts with
  | [] => []
  | t :: t1 =>
      match skip with
      | S k => funcs k t1
      | O =>
          match t with
          | W r => if ident r && called t1 then SALT ++ r ++ LPAREN :: funcs (spaces t1) t1
                   else r ++ funcs O t1
          | C c =>
              match t1 with
              | W r :: ts' =>
                  if quote c && ident r && called ts'
                  then SALT ++ (c :: r) ++ LPAREN :: funcs (S (spaces ts')) t1
                  else c :: funcs O t1
              | _ => c :: funcs O t1
              end
          end
      end
  end.
Fixpoint fsyms (skip : nat) (ts : list tok) : list text :=
  match ts with
  | [] => []
  | t :: t1 =>
      match skip with
      | S k => fsyms k t1
      | O =>
          match t with
          | W r => if ident r && called t1 then r :: fsyms (spaces t1) t1 else fsyms O t1
          | C c =>
              match t1 with
              | W r :: ts' => if quote c && ident r && called ts'
                              then (c :: r) :: fsyms (S (spaces ts')) t1
                              else fsyms O t1
              | _ => fsyms O t1
              end
          end
      end
  end.

(** line 116: what numexpr gets; lines 157-169: what [eval] gets *)
Definition ne_text (eqn : text) : text := vars_ne (toks (strip2 eqn)).
Definition np_vars_text (eqn : text) : text := vars_np (toks (strip2 eqn)).
Definition np_text (eqn : text) : text := funcs O (toks (np_vars_text eqn)).

(** the observable steps of an evaluation *)
Inductive effect :=
| GetField (name : text)      (* grid.get_field(name) *)
| HasAttr (name : text)       (* hasattr(calc, name), hasattr(np, name), getattr *)
| NumExpr (t : text)          (* ne.evaluate(t) *)
| Eval (t : text).            (* eval(t) *)

Inductive exc := RuntimeE | TypeE | OtherE.
Inductive outcome := Value | Raise (e : exc).
(** what [grid.get_field] does with a name *)
Inductive got := GField | GOther | GRaise (e : exc).

Definition memb (x : text) (l : list text) : bool :=
  existsb (fun y => if list_eq_dec Z.eq_dec x y then true else false) l.

(** lines 104-114, 149-155: the field lookups, each symbol once ([local_dict]);
    [strict] is the numexpr rule that the first thing found must be a field *)
Fixpoint lookups (grid : text -> got) (strict : bool) (syms seen : list text)
  : list effect * option exc :=
  match syms with
  | [] => ([], None)
  | s :: syms' =>
      if memb s seen then lookups grid strict syms' seen
      else match grid s with
           | GRaise e => ([GetField s], Some e)
           | GOther => if strict then ([GetField s], Some RuntimeE)
                       else let (es, r) := lookups grid false syms' (s :: seen) in (GetField s :: es, r)
           | GField => let (es, r) := lookups grid false syms' (s :: seen) in (GetField s :: es, r)
           end
  end.

(** lines 80-129.  [ne] is what numexpr does with a text ([None]: it returns). *)
Definition evaluate_numexpr (has_ne : bool) (grid : text -> got) (ne : text -> option exc)
    (eqn : text) : outcome * list effect :=
  if negb has_ne then (Raise RuntimeE, [])
  else match lookups grid true (syms_ne (toks (strip2 eqn))) [] with
       | (es, Some e) => (Raise e, es)
       | (es, None) => (match ne (ne_text eqn) with Some e => Raise e | None => Value end,
                        es ++ [NumExpr (ne_text eqn)])
       end.

(** lines 131-178 *)
Definition evaluate_numpy (enabled : bool) (grid : text -> got) (ev : text -> option exc)
    (eqn : text) : outcome * list effect :=
  if negb enabled then (Raise RuntimeE, [])
  else match lookups grid false (syms_np (toks (strip2 eqn))) [] with
       | (es, Some e) => (Raise e, es)
       | (es, None) =>
           let fs := map HasAttr (fsyms O (toks (np_vars_text eqn))) in
           (match ev (np_text eqn) with Some e => Raise e | None => Value end,
            es ++ fs ++ [Eval (np_text eqn)])
       end.

(** lines 32-78 *)
Definition evaluate (enabled has_ne try_ne : bool) (grid : text -> got)
    (ne ev : text -> option exc) (eqn : text) : outcome * list effect :=
  if negb enabled then (Raise RuntimeE, [])
  else
    let fallback es := let (o, es') := evaluate_numpy enabled grid ev eqn in (o, es ++ es') in
    if try_ne then
      match evaluate_numexpr has_ne grid ne eqn with
      | (Raise RuntimeE, es) => fallback es
      | (Raise TypeE, es) => fallback es
      | r => r
      end
    else fallback [].
End Classes.
