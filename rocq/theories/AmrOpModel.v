(** Model of arithmetic on AMR fields: viscid/amr_field.py [wrap_field_method] (273-305) for operators with an operand (338-402), and [__array__], [__array_wrap__] (312-341) for functions of numpy.

    SIMPLIFICATIONS: values are exact rationals; a patch is the list of its values in storage order, and patches have the same shape if they have the same number of values; results of comparisons are not modelled. An operator is any function of two numbers. *)
From Coq Require Import List ZArith QArith Bool Arith.
Import ListNotations.
Local Open Scope nat_scope.

Notation patch := (list Q).
Inductive err := ValueError | TypeError.
Inductive res A := Ok (a : A) | Raise (e : err).
Arguments Ok {A}. Arguments Raise {A}.
(** the other operand: a number (or anything without nr_patches), or a field with its patches; a Field has one, itself (field.py 790-796) *)
Inductive operand := Num (q : Q) | Fld (patches : list patch).
Inductive operand1 := Num1 (q : Q) | Patch1 (p : patch).
(** what a method of a patch returns: a field, or NotImplemented *)
Inductive answer := Vals (p : patch) | NotImplemented.

(** numpy on two arrays of values: value by value, an array with one value goes with all values of the other *)
Definition elementwise (op : Q -> Q -> Q) (p p' : patch) : res answer :=
  if length p =? length p' then Ok (Vals (map (fun xy => op (fst xy) (snd xy)) (combine p p')))
  else match p, p' with
       | _, [y] => Ok (Vals (map (fun x => op x y) p))
       | [x], _ => Ok (Vals (map (op x) p'))
       | _, _ => Raise ValueError
       end.
(** [Field.__add__] and the like, field.py 1909-1962 *)
Definition field_op (op : Q -> Q -> Q) (p : patch) (a : operand1) : res answer :=
  match a with Num1 q => Ok (Vals (map (fun x => op x q) p)) | Patch1 p' => elementwise op p p' end.
(** [Field.__iadd__] and the like, field.py 1964-1982 *)
Definition field_iop (p : patch) (a : operand1) : res answer := Ok NotImplemented.

(** 290-297: the operand for patch [i] *)
Definition operand_for (i : nat) (a : operand) : operand1 :=
  match a with
  | Num q => Num1 q
  | Fld ps => match nth_error ps i with Some p => Patch1 p | None => Patch1 (hd [] ps) end
  end.
(** 289-298 *)
Fixpoint each (m : patch -> operand1 -> res answer) (i : nat) (ps : list patch) (a : operand) : res (list answer) :=
  match ps with
  | [] => Ok []
  | p :: ps' =>
      match m p (operand_for i a) with
      | Raise e => Raise e
      | Ok r => match each m (S i) ps' a with Raise e => Raise e | Ok rs => Ok (r :: rs) end
      end
  end.
(** np.asarray(r).size; NotImplemented is one object *)
Definition size (r : answer) : nat := match r with Vals p => length p | NotImplemented => 1 end.
(** 273-305. In the branch for reductions the method of the array is called with **kwargs only, so that an operator misses its operand: TypeError. *)
Definition wrap (m : patch -> operand1 -> res answer) (ps : list patch) (a : operand) : res (list answer) :=
  let bad := match a with Num _ => false | Fld ps' => negb (length ps' =? length ps) && negb (length ps' =? 1) end in
  if bad then Raise ValueError
  else match each m 0 ps a with
       | Raise e => Raise e
       | Ok lst => if size (hd NotImplemented lst) =? 1 then Raise TypeError else Ok lst
       end.
Definition amr_op (op : Q -> Q -> Q) := wrap (field_op op).
Definition amr_iop := wrap field_iop.

(** 312-332: the patches side by side, patch index last: row [k] has the values at place [k] of all patches *)
Definition to_array (ps : list patch) : res (list (list Q)) :=
  match ps with
  | [] => Raise ValueError
  | p :: _ => if forallb (fun p' => length p' =? length p) ps
              then Ok (map (fun k => map (fun p' => nth k p' 0%Q) ps) (seq 0 (length p)))
              else Raise ValueError
  end.
(** 334-341: [np] is [arr.shape[-1]] *)
Definition from_array (np : nat) (arr : list (list Q)) : list patch := map (fun i => map (fun row => nth i row 0%Q) arr) (seq 0 np).
(** a function of numpy of one AMR field *)
Definition ufunc1 (f : Q -> Q) (ps : list patch) : res (list patch) :=
  match to_array ps with Raise e => Raise e | Ok arr => Ok (from_array (length ps) (map (map f) arr)) end.
(** of an AMR field and another with patches of the same shape, or a number *)
Definition ufunc2 (f : Q -> Q -> Q) (ps : list patch) (a : operand) : res (list patch) :=
  match to_array ps with
  | Raise e => Raise e
  | Ok arr =>
      match a with
      | Num q => Ok (from_array (length ps) (map (map (fun x => f x q)) arr))
      | Fld ps' =>
          match to_array ps' with
          | Raise e => Raise e
          | Ok arr' =>
              if (length arr =? length arr') && (length ps =? length ps')
              then Ok (from_array (length ps) (map (fun rr => map (fun xy => f (fst xy) (snd xy)) (combine (fst rr) (snd rr))) (combine arr arr')))
              else Raise ValueError
          end
      end
  end.
(** of an AMR field with patches of one dimension and a Field of one dimension: numpy lays the last dimension of the one, the patches, along that of the other *)
Definition ufunc2_field (f : Q -> Q -> Q) (ps : list patch) (fld : patch) : res (list patch) :=
  match to_array ps with
  | Raise e => Raise e
  | Ok arr => if length fld =? length ps
              then Ok (from_array (length ps) (map (fun row => map (fun xy => f (fst xy) (snd xy)) (combine row fld)) arr))
              else match fld with
                   | [y] => Ok (from_array (length ps) (map (map (fun x => f x y)) arr))
                   | _ => Raise ValueError (* or, for a single patch, an array of another shape *)
                   end
  end.
