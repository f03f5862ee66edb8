(** Model of viscid/vutil.py [slice_globbed_filenames] (521-606).

    The file system is an argument: what [glob] finds, and for each name the number
    that stands where the slice was ([None] if [float] fails there).  Numbers are exact
    rationals; nan and inf as file times are not modelled.  Of the text of the slice
    the model has the regular expression that decides whether a bracket is a slice at
    all (555-560); turning the text into a selection (sliceutil.standardize_sel) is not
    modelled, the selection is an argument. *)
From Coq Require Import List ZArith QArith Bool Arith Ascii.
From Verif Require Import SelModel.
Import ListNotations.

(** ** which brackets are slices *)
Definition lang := list ascii -> Prop.
Definition chr (p : ascii -> bool) : lang := fun s => exists c, s = [c] /\ p c = true.
Definition cat (a b : lang) : lang := fun s => exists x y, s = x ++ y /\ a x /\ b y.
Definition alt (a b : lang) : lang := fun s => a s \/ b s.
Definition eps : lang := fun s => s = [].
Definition opt (a : lang) : lang := alt a eps.
Inductive star (a : lang) : lang :=
| star_nil : star a []
| star_cons x y : a x -> star a y -> star a (x ++ y).
Definition plus (a : lang) : lang := cat a (star a).

Definition is_digit (c : ascii) : bool := (48 <=? nat_of_ascii c)%nat && (nat_of_ascii c <=? 57)%nat.
Definition one_of (l : list ascii) (c : ascii) : bool := existsb (Ascii.eqb c) l.
Definition digit := chr is_digit.
Definition sign := chr (one_of ["-"; "+"]%char).
Definition colon := chr (one_of [":"]%char).
Definition dash := chr (one_of ["-"]%char).
Definition dot := chr (one_of ["."]%char).
Definition dd := cat digit digit.

(** sliceutil.py 20-29: RE_DTIME_SLC_GROUP *)
Definition date := cat (cat dd dd) (cat dash (cat dd (cat dash dd))).
Definition time02 :=
  cat (alt dd (alt (cat dd (cat colon dd)) (cat dd (cat colon (cat dd (cat colon dd))))))
      (opt (cat dot (plus digit))).
Definition ut := plus (chr (one_of ["u"; "t"; "U"; "T"]%char)).
Definition dtime := cat ut (alt (cat date (opt (cat (chr (one_of ["t"; "T"]%char)) time02))) time02).
(** vutil.py 556: number_re *)
Definition number :=
  alt (cat (opt sign) (cat (star digit) (cat (opt dot) (cat (plus digit) (opt (chr (one_of ["f"; "j"; "F"; "J"]%char)))))))
      (cat (opt sign) (alt digit (chr (one_of ["+"]%char)))).
Definition element := alt dtime number.
(** vutil.py 558, without the brackets *)
Definition slice_text : lang :=
  cat (opt element) (cat (opt (cat colon element)) (opt (cat colon (cat (opt sign) (star digit))))).

(** ** choosing the files *)
Inductive gsel :=
| GInt (i : Z) | GVal (v : Q) | GSlice (start stop : sbound) (step : option Z).
Inductive gerr := GIOError | GIndexError | GValueError.
Inductive gres A := GOk (a : A) | GErr (e : gerr).
Arguments GOk {A}. Arguments GErr {A}.

(** [sorted(zip(fnames, times), key=itemgetter(1))], 592: stable *)
Fixpoint insert {A} (x : A * Q) (l : list (A * Q)) : list (A * Q) :=
  match l with
  | [] => [x]
  | y :: l' => if Qle_bool (snd x) (snd y) then x :: l else y :: insert x l'
  end.
Fixpoint sort {A} (l : list (A * Q)) : list (A * Q) :=
  match l with [] => [] | x :: l' => insert x (sort l') end.

(** 581-590: names without a number are left out *)
Fixpoint timed {A} (l : list (A * option Q)) : list (A * Q) :=
  match l with
  | [] => []
  | (f, Some t) :: l' => (f, t) :: timed l'
  | (_, None) :: l' => timed l'
  end.

(** 595-596 and [np.arange(len(fnames))[slc]], 601 *)
Definition indices (times : list Q) (s : gsel) : gres (list Z) :=
  let n := Z.of_nat (length times) in
  match s with
  | GInt i => if (i <? - n)%Z || (n <=? i)%Z then GErr GIndexError
              else GOk [if (i <? 0)%Z then (i + n)%Z else i]
  | GVal v => match times with [] => GErr GIndexError | _ => GOk [Z.of_nat (nearest_index times v)] end
  | GSlice a b st =>
      match std_sel2index times a b st true false with
      | SSlice p => match sel n p with Some is => GOk is | None => GErr GValueError end
      | _ => GErr GIndexError
      end
  end.

(** 602-603: [[s for i, s in enumerate(fnames) if i in idx_whitelist]] *)
Fixpoint whitelist {A} (is : list Z) (i : nat) (l : list A) : list A :=
  match l with
  | [] => []
  | f :: l' => if existsb (Z.eqb (Z.of_nat i)) is then f :: whitelist is (S i) l' else whitelist is (S i) l'
  end.

(** 570-606; [None]: no bracket is a slice *)
Definition slice_globbed {A} (s : option gsel) (found : list (A * option Q)) : gres (list A) :=
  match s with
  | None => GOk (map fst found)
  | Some s =>
      match found with
      | [] => GErr GIOError
      | _ => let sorted := sort (timed found) in
             match indices (map snd sorted) s with
             | GErr e => GErr e
             | GOk is => GOk (whitelist is 0 (map fst sorted))
             end
      end
  end.
