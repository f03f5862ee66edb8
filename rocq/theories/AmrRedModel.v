(** Model of viscid/amr_field.py [AMRField.wrap_field_method] (273-305) and the methods
    made with it (338-468).

    A patch is the list of its values in storage order (the shape plays no part when
    there is no axis argument).  Values are exact rationals, truth values are 0 and 1.
    A method maps the values of a patch to the values of its result, or raises
    ([None]).  Methods with an axis argument are not modelled. *)
From Coq Require Import List ZArith QArith Qabs Qminmax Bool Arith.
Import ListNotations.
Local Open Scope Q_scope.

Notation patch := (list Q).
Definition method := patch -> option patch.

(** numpy's reductions over all values of an array *)
Definition q_sum (l : list Q) : Q := fold_right Qplus 0 l.
Definition q_prod (l : list Q) : Q := fold_right Qmult 1 l.
Definition truth (x : Q) : bool := negb (Qeq_bool x 0).
Definition of_bool (b : bool) : Q := if b then 1 else 0.
Definition q_min1 (x : Q) (l : list Q) : Q := fold_left (fun a b => if Qle_bool a b then a else b) l x.
Definition q_max1 (x : Q) (l : list Q) : Q := fold_left (fun a b => if Qle_bool b a then a else b) l x.
(** position of the first largest value *)
Fixpoint argmax_from (i best : nat) (bv : Q) (l : list Q) : nat :=
  match l with
  | [] => best
  | x :: l' => if Qle_bool x bv then argmax_from (S i) best bv l' else argmax_from (S i) i x l'
  end.

Definition m_sum : method := fun l => Some [q_sum l].
Definition m_prod : method := fun l => Some [q_prod l].
Definition m_any : method := fun l => Some [of_bool (existsb truth l)].
Definition m_all : method := fun l => Some [of_bool (forallb truth l)].
Definition m_min : method := fun l => match l with [] => None | x :: r => Some [q_min1 x r] end.
Definition m_max : method := fun l => match l with [] => None | x :: r => Some [q_max1 x r] end.
(** an empty patch has the mean nan, which is not modelled *)
Definition m_mean : method := fun l =>
  match l with [] => None | _ => Some [q_sum l / inject_Z (Z.of_nat (length l))] end.
Definition m_ptp : method := fun l => match l with [] => None | x :: r => Some [q_max1 x r - q_min1 x r] end.
Definition m_argmax : method := fun l =>
  match l with [] => None | x :: r => Some [inject_Z (Z.of_nat (argmax_from 1 0 x r))] end.
(** element by element *)
Definition m_map (f : Q -> Q) : method := fun l => Some (map f l).
Definition m_neg := m_map Qopp.
Definition m_abs := m_map Qabs.

Inductive outcome :=
| Arr (a : list Q)              (* a number or an array, no longer a field *)
| Amr (ps : list patch)         (* a field with these patches *)
| Raises.

Fixpoint all_some {A} (l : list (option A)) : option (list A) :=
  match l with
  | [] => Some []
  | None :: _ => None
  | Some x :: l' => match all_some l' with Some r => Some (x :: r) | None => None end
  end.

(** amr_field.py 287-305, for methods without arguments: the method on every patch; if
    the result for the first patch has size one, the method again on the array of the
    results ([np.array] of results of different sizes is not an array of numbers:
    modelled as an exception) *)
Definition wrap (m : method) (ps : list patch) : outcome :=
  match all_some (map m ps) with
  | None => Raises
  | Some [] => Raises
  | Some (r0 :: rs) =>
      if (length r0 =? 1)%nat then
        if forallb (fun r => length r =? 1)%nat rs then
          match m (concat (r0 :: rs)) with Some a => Arr a | None => Raises end
        else Raises
      else Amr (r0 :: rs)
  end.

(** the same for operators with one argument: the second time no argument is passed,
    which is a TypeError.  [arg i] are the values of the argument that go with patch [i]
    (amr_field.py 276-298) *)
Definition binop (f : Q -> Q -> Q) (a b : patch) : patch := map (fun p => f (fst p) (snd p)) (combine a b).
Definition nth_patch (ps : list patch) (i : nat) : patch :=
  match nth_error ps i with
  | Some p => p
  | None => match ps with p :: _ => p | [] => [] end      (* IndexError: patches[0] *)
  end.
Definition wrap2 (f : Q -> Q -> Q) (ps qs : list patch) : outcome :=
  if negb (length qs =? length ps)%nat && negb (length qs =? 1)%nat then Raises
  else
    let rs := map (fun ip => binop f (snd ip) (nth_patch qs (fst ip))) (combine (seq 0 (length ps)) ps) in
    match rs with
    | [] => Raises
    | r0 :: _ => if (length r0 =? 1)%nat then Raises else Amr rs
    end.
