(** C98: arithmetic and functions on AMR fields. *)
From Coq Require Import List ZArith QArith Bool Arith Lia ZifyBool ZifyNat.
From Verif Require Import AmrOpModel.
Import ListNotations.
Local Open Scope nat_scope.

(** ** Specification *)
(** the operand has a value for each value of the field: a number, a field with the same patches, or a single field as large as each patch *)
Inductive fits (ps : list patch) : operand -> Prop :=
| fits_num q : fits ps (Num q)
| fits_amr ps' : map (@length Q) ps' = map (@length Q) ps -> fits ps (Fld ps')
| fits_one p' : Forall (fun p => length p = length p') ps -> fits ps (Fld [p']).
(** its value at place [k] of patch [i] *)
Definition value (a : operand) (i k : nat) : option Q :=
  match a with
  | Num q => Some q
  | Fld [p] => nth_error p k
  | Fld ps => match nth_error ps i with Some p => nth_error p k | None => None end
  end.
(** [new] has the same patches as [ps], with the value of [f] at each place *)
Definition placewise (f : Q -> nat -> nat -> option Q) (ps new : list patch) : Prop :=
  map (@length Q) new = map (@length Q) ps /\
  forall i k p x, nth_error ps i = Some p -> nth_error p k = Some x ->
    exists p' y, nth_error new i = Some p' /\ nth_error p' k = Some y /\ f x i k = Some y.

(** ** Lemmas *)
Definition good (op : Q -> Q -> Q) (p : patch) (a : operand1) : Prop := match a with Num1 _ => True | Patch1 p' => length p' = length p end.
Definition opvals (op : Q -> Q -> Q) (p : patch) (a : operand1) : patch :=
  match a with Num1 q => map (fun x => op x q) p | Patch1 p' => map (fun xy => op (fst xy) (snd xy)) (combine p p') end.
Lemma field_op_good op p a : good op p a -> field_op op p a = Ok (Vals (opvals op p a)).
Proof. destruct a as [q|p']; cbn [good field_op opvals]; [reflexivity|]. intros H. unfold elementwise. rewrite H, Nat.eqb_refl. reflexivity. Qed.
Lemma opvals_length op p a : good op p a -> length (opvals op p a) = length p.
Proof. destruct a as [q|p']; cbn [good opvals]; intros H; rewrite map_length; [reflexivity|]. rewrite combine_length, H. apply Nat.min_id. Qed.
Fixpoint allvals (op : Q -> Q -> Q) (i : nat) (ps : list patch) (a : operand) : list patch :=
  match ps with [] => [] | p :: ps' => opvals op p (operand_for i a) :: allvals op (S i) ps' a end.
Lemma each_good op a : forall ps i, (forall k p, nth_error ps k = Some p -> good op p (operand_for (i + k) a)) ->
  each (field_op op) i ps a = Ok (map Vals (allvals op i ps a)).
Proof.
  induction ps as [|p ps IH]; intros i H; [reflexivity|]. cbn [each allvals map]. pose proof (H 0 p eq_refl) as H0. rewrite Nat.add_0_r in H0. rewrite (field_op_good _ _ _ H0), (IH (S i)); [reflexivity|].
  intros k q Hk. specialize (H (S k) q Hk). replace (S i + k) with (i + S k) by lia. exact H.
Qed.
Lemma allvals_nth op a : forall ps i k, nth_error (allvals op i ps a) k = option_map (fun p => opvals op p (operand_for (i + k) a)) (nth_error ps k).
Proof.
  induction ps as [|p ps IH]; intros i [|k]; cbn [allvals nth_error option_map]; try reflexivity; [rewrite Nat.add_0_r; reflexivity|]. rewrite IH. replace (S i + k) with (i + S k) by lia. reflexivity.
Qed.
Lemma allvals_lengths op a : forall ps i, (forall k p, nth_error ps k = Some p -> good op p (operand_for (i + k) a)) -> map (@length Q) (allvals op i ps a) = map (@length Q) ps.
Proof.
  induction ps as [|p ps IH]; intros i H; [reflexivity|]. cbn [allvals map]. pose proof (H 0 p eq_refl) as H0. rewrite Nat.add_0_r in H0. rewrite (opvals_length _ _ _ H0). f_equal. apply IH. intros k q Hk. specialize (H (S k) q Hk). replace (S i + k) with (i + S k) by lia. exact H.
Qed.
Lemma nth_error_combine {A B} : forall (l : list A) (l' : list B) k, nth_error (combine l l') k = match nth_error l k, nth_error l' k with Some a, Some b => Some (a, b) | _, _ => None end.
Proof. induction l as [|a l IH]; intros [|b l'] [|k]; cbn [combine nth_error]; try reflexivity; [destruct (nth_error l k); reflexivity|apply IH]. Qed.
Lemma fits_good op ps a : fits ps a -> forall k p, nth_error ps k = Some p -> good op p (operand_for k a).
Proof.
  intros F k p Hk. destruct F as [q|ps' E|p' E]; [exact I| |].
  - cbn [operand_for]. pose proof (f_equal (fun l => nth_error l k) E) as Ek. cbv beta in Ek. rewrite !nth_error_map, Hk in Ek. destruct (nth_error ps' k) as [p'|]; [|discriminate]. cbn in Ek. cbn [good]. congruence.
  - rewrite Forall_forall in E. pose proof (E p (nth_error_In _ _ Hk)) as L. cbn [operand_for]. destruct k as [|k]; cbn [nth_error hd good]; [symmetry; exact L|]. destruct k; cbn [nth_error good]; symmetry; exact L.
Qed.
Lemma fits_counts ps a : fits ps a -> match a with Num _ => false | Fld ps' => negb (length ps' =? length ps) && negb (length ps' =? 1) end = false.
Proof.
  intros [q|ps' E|p' E]; [reflexivity| |].
  - apply (f_equal (@length nat)) in E. rewrite !map_length in E. rewrite E, Nat.eqb_refl. reflexivity.
  - cbn [length]. rewrite Nat.eqb_refl. apply andb_false_r.
Qed.
Lemma fits_value op ps a i p k x : fits ps a -> nth_error ps i = Some p -> nth_error p k = Some x ->
  exists y, value a i k = Some y /\ nth_error (opvals op p (operand_for i a)) k = Some (op x y).
Proof.
  intros F Hi Hk. pose proof (fits_good op ps a F i p Hi) as G. assert (Kp : k < length p) by (apply nth_error_Some; congruence).
  assert (Z : forall p', length p' = length p -> exists y, nth_error p' k = Some y /\ nth_error (map (fun xy => op (fst xy) (snd xy)) (combine p p')) k = Some (op x y)).
  { intros p' L. destruct (nth_error p' k) as [y|] eqn:Ey; [|apply nth_error_None in Ey; lia]. exists y. split; [reflexivity|]. rewrite nth_error_map, nth_error_combine, Hk, Ey. reflexivity. }
  destruct F as [q|ps' E|p' E].
  - exists q. split; [reflexivity|]. cbn [operand_for opvals]. rewrite nth_error_map, Hk. reflexivity.
  - cbn [operand_for] in *. assert (Li : i < length ps'). { apply (f_equal (@length nat)) in E. rewrite !map_length in E. rewrite E. apply nth_error_Some. congruence. }
    destruct (nth_error ps' i) as [p'|] eqn:Ep; [|apply nth_error_None in Ep; lia]. cbn [good] in G. destruct (Z p' G) as (y & Y1 & Y2). exists y. split; [|exact Y2].
    destruct ps' as [|q0 [|q1 qs]]; [destruct i; discriminate| |cbn [value]; rewrite Ep; exact Y1]. cbn [length] in Li. replace i with 0 in Ep by lia. cbn in Ep. injection Ep as ->. exact Y1.
  - rewrite Forall_forall in E. destruct (Z p' (eq_sym (E p (nth_error_In _ _ Hi)))) as (y & Y1 & Y2). exists y. split; [exact Y1|]. replace (operand_for i (Fld [p'])) with (Patch1 p'); [exact Y2|]. destruct i as [|[|i]]; reflexivity.
Qed.

(** ** Theorems *)
(** An operator works at each place of each patch, with the value the operand has there. *)
Theorem C98_arithmetic : forall op ps a, ps <> [] -> length (hd [] ps) <> 1 -> fits ps a ->
  exists new, amr_op op ps a = Ok (map Vals new) /\ placewise (fun x i k => option_map (op x) (value a i k)) ps new.
Proof.
  intros op ps a NE N1 F. exists (allvals op 0 ps a). pose proof (fits_good op ps a F) as G. split.
  - unfold amr_op, wrap. rewrite (fits_counts ps a F), (each_good op a ps 0 G). destruct ps as [|p ps]; [contradiction|]. cbn [allvals map hd size]. rewrite (opvals_length op p (operand_for 0 a) (G 0 p eq_refl)). cbn [hd] in N1. destruct (Nat.eqb_spec (length p) 1); [contradiction|reflexivity].
  - split; [apply (allvals_lengths op a ps 0 G)|]. intros i k p x Hi Hk. destruct (fits_value op ps a i p k x F Hi Hk) as (y & V & O). exists (opvals op p (operand_for i a)), (op x y). split; [rewrite allvals_nth, Hi; reflexivity|]. split; [exact O|]. rewrite V. reflexivity.
Qed.
Print Assumptions C98_arithmetic.
(** AMR fields with other numbers of patches are refused. *)
Theorem C98_other_patches : forall op ps ps', length ps' <> length ps -> length ps' <> 1 ->
  amr_op op ps (Fld ps') = Raise ValueError /\ amr_iop ps (Fld ps') = Raise ValueError.
Proof. intros op ps ps' H1 H2. unfold amr_op, amr_iop, wrap. destruct (Nat.eqb_spec (length ps') (length ps)); [contradiction|]. destruct (Nat.eqb_spec (length ps') 1); [contradiction|]. split; reflexivity. Qed.
Print Assumptions C98_other_patches.
(** += and the like never work. *)
Theorem C98_inplace_refuted : forall ps a, ps <> [] -> fits ps a -> amr_iop ps a = Raise TypeError.
Proof.
  intros ps a NE F. unfold amr_iop, wrap. rewrite (fits_counts ps a F). assert (E : forall qs i, each field_iop i qs a = Ok (map (fun _ => NotImplemented) qs)) by (induction qs as [|q qs IH]; intros i; cbn [each map field_iop]; [reflexivity|rewrite IH; reflexivity]).
  rewrite E. destruct ps; [contradiction|]. reflexivity.
Qed.
Print Assumptions C98_inplace_refuted.
(** Nor does any operator if the first patch has a single value. *)
Theorem C98_single_cell_refuted : forall op x ps a, fits ([x] :: ps) a -> amr_op op ([x] :: ps) a = Raise TypeError.
Proof.
  intros op x ps a F. unfold amr_op, wrap. rewrite (fits_counts _ a F). pose proof (fits_good op _ a F) as G. rewrite (each_good op a _ 0 G). cbn [allvals map hd size]. rewrite (opvals_length op [x] (operand_for 0 a) (G 0 [x] eq_refl)). reflexivity.
Qed.
Print Assumptions C98_single_cell_refuted.

Lemma to_array_ok ps n : ps <> [] -> Forall (fun p => length p = n) ps -> to_array ps = Ok (map (fun k => map (fun p => nth k p 0%Q) ps) (seq 0 n)).
Proof.
  intros NE F. destruct ps as [|p ps]; [contradiction|]. unfold to_array. inversion F as [|a l Hp Hr E]; subst a l. replace (forallb (fun p' => length p' =? length p) (p :: ps)) with true; [rewrite Hp; reflexivity|].
  symmetry. apply forallb_forall. intros q Hq. rewrite Forall_forall in F. apply Nat.eqb_eq. rewrite Hp. apply F. exact Hq.
Qed.
Lemma to_array_bad ps p q : In p ps -> In q ps -> length p <> length q -> to_array ps = Raise ValueError.
Proof.
  intros Hp Hq N. destruct ps as [|p0 ps]; [reflexivity|]. unfold to_array. destruct (forallb _ _) eqn:E; [|reflexivity]. rewrite forallb_forall in E. exfalso. apply N. pose proof (E p Hp) as A. pose proof (E q Hq) as B. apply Nat.eqb_eq in A, B. congruence.
Qed.
Lemma from_array_placewise (g : Q -> nat -> nat -> Q) ps n arr : Forall (fun p => length p = n) ps -> length arr = n ->
  (forall i k p, nth_error ps i = Some p -> k < n -> nth i (nth k arr []) 0%Q = g (nth k p 0%Q) i k) ->
  placewise (fun x i k => Some (g x i k)) ps (from_array (length ps) arr).
Proof.
  intros F L H. unfold placewise, from_array. split.
  - rewrite map_map. assert (E : map (@length Q) ps = map (fun _ => n) (seq 0 (length ps))). { clear -F. generalize 0. induction F as [|p ps Hp Fp IH]; intros s; cbn [map length seq]; [reflexivity|]. rewrite Hp. f_equal. apply IH. }
    rewrite E. apply map_ext. intros i. rewrite map_length. exact L.
  - intros i k p x Hi Hk. assert (Li : i < length ps) by (apply nth_error_Some; congruence). assert (Lk : k < n). { rewrite Forall_forall in F. rewrite <- (F p (nth_error_In _ _ Hi)). apply nth_error_Some. congruence. }
    exists (map (fun row => nth i row 0%Q) arr), (nth i (nth k arr []) 0%Q). split; [|split].
    + rewrite nth_error_map. assert (S : nth_error (seq 0 (length ps)) i = Some i). { rewrite (nth_error_nth' _ 0) by (rewrite seq_length; exact Li). rewrite seq_nth by exact Li. reflexivity. } rewrite S. reflexivity.
    + rewrite nth_error_map. rewrite (nth_error_nth' arr []) by lia. reflexivity.
    + rewrite (H i k p Hi Lk). f_equal. f_equal. apply nth_error_nth with (d := 0%Q) in Hk. symmetry. exact Hk.
Qed.
Lemma row_at ps n i k p : nth_error ps i = Some p -> k < n -> nth i (nth k (map (fun k => map (fun p => nth k p 0%Q) ps) (seq 0 n)) []) 0%Q = nth k p 0%Q /\
  nth k (map (fun k => map (fun p => nth k p 0%Q) ps) (seq 0 n)) [] = map (fun p => nth k p 0%Q) ps.
Proof.
  intros Hi Hk. assert (E : nth k (map (fun k => map (fun p => nth k p 0%Q) ps) (seq 0 n)) [] = map (fun p => nth k p 0%Q) ps).
  { rewrite (nth_indep _ [] ((fun k => map (fun p => nth k p 0%Q) ps) 0)) by (rewrite map_length, seq_length; exact Hk). rewrite (map_nth (fun k => map (fun p => nth k p 0%Q) ps)), seq_nth by exact Hk. reflexivity. }
  split; [|exact E]. rewrite E. apply nth_error_nth. rewrite nth_error_map, Hi. reflexivity.
Qed.
(** A function of numpy gives its value at each place of each patch, if the patches have one size; otherwise it is refused. *)
Theorem C98_function : forall f ps n, ps <> [] -> Forall (fun p => length p = n) ps ->
  exists new, ufunc1 f ps = Ok new /\ placewise (fun x _ _ => Some (f x)) ps new.
Proof.
  intros f ps n NE F. unfold ufunc1. rewrite (to_array_ok ps n NE F). eexists. split; [reflexivity|]. apply (from_array_placewise (fun x _ _ => f x) ps n); [exact F|rewrite !map_length; apply seq_length|].
  intros i k p Hi Hk. destruct (row_at ps n i k p Hi Hk) as [_ E]. rewrite (nth_indep _ [] (map f [])) by (rewrite !map_length, seq_length; exact Hk). rewrite (map_nth (map f)), E, map_map. apply nth_error_nth. rewrite nth_error_map, Hi. reflexivity.
Qed.
Print Assumptions C98_function.
Theorem C98_function_sizes : forall f ps p q, In p ps -> In q ps -> length p <> length q -> ufunc1 f ps = Raise ValueError.
Proof. intros f ps p q Hp Hq N. unfold ufunc1. rewrite (to_array_bad ps p q Hp Hq N). reflexivity. Qed.
Print Assumptions C98_function_sizes.
(** So does a function of two AMR fields with the same patches, or of an AMR field and a number. *)
Theorem C98_function2 : forall f ps a n, ps <> [] -> Forall (fun p => length p = n) ps ->
  (exists q, a = Num q) \/ (exists ps', a = Fld ps' /\ map (@length Q) ps' = map (@length Q) ps) ->
  exists new, ufunc2 f ps a = Ok new /\ placewise (fun x i k => option_map (f x) (value a i k)) ps new.
Proof.
  intros f ps a n NE F [(q & ->)|(ps' & -> & L)]; unfold ufunc2; rewrite (to_array_ok ps n NE F).
  - eexists. split; [reflexivity|]. cbn [value option_map]. apply (from_array_placewise (fun x _ _ => f x q) ps n); [exact F|rewrite !map_length; apply seq_length|].
    intros i k p Hi Hk. destruct (row_at ps n i k p Hi Hk) as [_ E]. rewrite (nth_indep _ [] (map (fun x => f x q) [])) by (rewrite !map_length, seq_length; exact Hk). rewrite (map_nth (map (fun x => f x q))), E, map_map. apply nth_error_nth. rewrite nth_error_map, Hi. reflexivity.
  - assert (Lc : length ps' = length ps) by (apply (f_equal (@length nat)) in L; rewrite !map_length in L; exact L).
    assert (F' : Forall (fun p => length p = n) ps'). { apply Forall_forall. intros p Hp. apply (in_map (@length Q)) in Hp. rewrite L in Hp. apply in_map_iff in Hp as (q & E & Hq). rewrite Forall_forall in F. rewrite <- E. apply F. exact Hq. }
    rewrite (to_array_ok ps' n) by (exact F' || (intros ->; destruct ps; [contradiction|discriminate])). rewrite !map_length, !Nat.eqb_refl, Lc, Nat.eqb_refl. cbn [andb]. eexists. split; [reflexivity|].
    assert (P : placewise (fun x i k => Some (f x (nth k (nth i ps' []) 0%Q))) ps (from_array (length ps) (map (fun rr => map (fun xy => f (fst xy) (snd xy)) (combine (fst rr) (snd rr)))
        (combine (map (fun k => map (fun p => nth k p 0%Q) ps) (seq 0 n)) (map (fun k => map (fun p => nth k p 0%Q) ps') (seq 0 n)))))).
    { apply (from_array_placewise (fun x i k => f x (nth k (nth i ps' []) 0%Q)) ps n); [exact F|rewrite map_length, combine_length, !map_length, seq_length; apply Nat.min_id|].
      intros i k p Hi Hk. apply nth_error_nth. assert (Li : i < length ps') by (rewrite Lc; apply nth_error_Some; congruence).
      assert (R : nth k (map (fun rr : list Q * list Q => map (fun xy => f (fst xy) (snd xy)) (combine (fst rr) (snd rr))) (combine (map (fun k => map (fun p => nth k p 0%Q) ps) (seq 0 n)) (map (fun k => map (fun p => nth k p 0%Q) ps') (seq 0 n)))) [] =
        map (fun xy => f (fst xy) (snd xy)) (combine (map (fun p => nth k p 0%Q) ps) (map (fun p => nth k p 0%Q) ps'))).
      { apply nth_error_nth. rewrite nth_error_map, nth_error_combine, !nth_error_map. assert (S : nth_error (seq 0 n) k = Some k). { rewrite (nth_error_nth' _ 0) by (rewrite seq_length; exact Hk). rewrite seq_nth by exact Hk. reflexivity. } rewrite S. reflexivity. }
      rewrite R, nth_error_map, nth_error_combine, !nth_error_map, Hi. rewrite (nth_error_nth' ps' []) by exact Li. reflexivity. }
    destruct P as [P1 P2]. split; [exact P1|]. intros i k p x Hi Hk. destruct (P2 i k p x Hi Hk) as (p' & y & A & B & C). exists p', y. split; [exact A|]. split; [exact B|]. cbv beta in C |- *. rewrite <- C.
    assert (Li : i < length ps') by (rewrite Lc; apply nth_error_Some; congruence). assert (Lk : k < length (nth i ps' [])). { rewrite Forall_forall in F, F'. rewrite (F' _ (nth_In ps' [] Li)), <- (F p (nth_error_In _ _ Hi)). apply nth_error_Some. congruence. }
    assert (V : value (Fld ps') i k = Some (nth k (nth i ps' []) 0%Q)). { destruct ps' as [|q0 [|q1 qs]]; cbn [length] in Li; [lia| |].
      - replace i with 0 in * by lia. cbn [value nth] in *. apply nth_error_nth'. exact Lk.
      - cbn [value]. rewrite (nth_error_nth' (q0 :: q1 :: qs) []) by exact Li. apply nth_error_nth'. exact Lk. }
    rewrite V. reflexivity.
Qed.
Print Assumptions C98_function2.
(** A function of an AMR field and a single field as large as its patches takes the value for the patch instead of that for the place, where the operator takes the right one. *)
Theorem C98_function_field_refuted : forall f ps fld, ps <> [] -> Forall (fun p => length p = length fld) ps -> length fld = length ps ->
  exists new, ufunc2_field f ps fld = Ok new /\ placewise (fun x i _ => option_map (f x) (nth_error fld i)) ps new.
Proof.
  intros f ps fld NE F L. unfold ufunc2_field. rewrite (to_array_ok ps _ NE F), L, Nat.eqb_refl. eexists. split; [reflexivity|].
  assert (P : placewise (fun x i k => Some (f x (nth i fld 0%Q))) ps (from_array (length ps) (map (fun row => map (fun xy => f (fst xy) (snd xy)) (combine row fld)) (map (fun k => map (fun p => nth k p 0%Q) ps) (seq 0 (length ps)))))).
  { apply (from_array_placewise (fun x i _ => f x (nth i fld 0%Q)) ps (length ps)); [rewrite <- L; exact F|rewrite !map_length; apply seq_length|].
    intros i k p Hi Hk. apply nth_error_nth. assert (Li : i < length fld) by (rewrite L; apply nth_error_Some; congruence). destruct (row_at ps (length ps) i k p Hi Hk) as [_ E].
    rewrite (nth_indep _ [] (map (fun xy => f (fst xy) (snd xy)) (combine [] fld))) by (rewrite !map_length, seq_length; exact Hk). rewrite (map_nth (fun row => map (fun xy => f (fst xy) (snd xy)) (combine row fld))), E, nth_error_map, nth_error_combine, nth_error_map, Hi. rewrite (nth_error_nth' fld 0%Q) by exact Li. reflexivity. }
  destruct P as [P1 P2]. split; [exact P1|]. intros i k p x Hi Hk. destruct (P2 i k p x Hi Hk) as (p' & y & A & B & C). exists p', y. split; [exact A|]. split; [exact B|]. rewrite <- C. rewrite (nth_error_nth' fld 0%Q) by (rewrite L; apply nth_error_Some; congruence). reflexivity.
Qed.
Print Assumptions C98_function_field_refuted.

(** ** the hypotheses are met *)
Example fits_ok : fits [[1;2];[3;4]]%Q (Fld [[5;6];[7;8]]%Q) /\ fits [[1;2];[3;4]]%Q (Fld [[5;6]]%Q) /\
  amr_op Qplus [[1;2];[3;4]]%Q (Fld [[5;6]]%Q) = Ok [Vals [6;8]; Vals [8;10]]%Q /\
  ufunc2_field Qplus [[1;2];[3;4]]%Q [5;6]%Q = Ok [[6;7]; [9;10]]%Q.
Proof. split; [apply fits_amr; reflexivity|]. split; [apply fits_one; repeat constructor|]. split; reflexivity. Qed.
Example function_ok : ufunc1 Qopp [[1;2];[3;4];[5;6]]%Q = Ok [[-(1);-(2)];[-(3);-(4)];[-(5);-(6)]]%Q /\ Forall (fun p => length p = 2) [[1;2];[3;4];[5;6]]%Q.
Proof. split; [reflexivity|repeat constructor]. Qed.
