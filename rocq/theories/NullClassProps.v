(** C56: the classification of nulls by the eigenvalues of the Jacobian. *)
From Verif Require Import NullModel.
From Coq Require Import Lra Lia Arith Permutation Sorted.
Open Scope R_scope.

(** * specification *)
Definition abs2 (e : cplx) : R := fst e ^ 2 + snd e ^ 2.
(* the eigenvalues of a real 3 x 3 matrix in any order: three real ones, or a real one and a conjugate pair *)
Definition eigenvalues (l : list cplx) : Prop :=
  (exists a b c, Permutation l [(a, 0); (b, 0); (c, 0)]) \/ (exists a p q, 0 < q /\ Permutation l [(a, 0); (p, q); (p, - q)]).
(* trace and determinant: sum and product of the eigenvalues, which are real *)
Definition cmul (a b : cplx) : cplx := (fst a * fst b - snd a * snd b, fst a * snd b + snd a * fst b).
Definition trace (l : list cplx) : R := fold_right (fun e s => fst e + s) 0 l.
Definition det (l : list cplx) : R := fst (fold_right cmul (1, 0) l).
Definition small (atol : R) (e : cplx) : Prop := sqrt (abs2 e) <= atol.

Lemma is0_iff rtol atol v : is0 rtol atol v = true <-> v <= atol.
Proof. unfold is0. rewrite Rmult_0_r, Rplus_0_r. destruct (Rle_dec v atol); split; intros; auto; try discriminate; contradiction. Qed.
Lemma is0_niff rtol atol v : is0 rtol atol v = false <-> atol < v.
Proof. unfold is0. rewrite Rmult_0_r, Rplus_0_r. destruct (Rle_dec v atol); split; intros; auto; try discriminate; lra. Qed.
Lemma abs2_real a : sqrt (abs2 (a, 0)) = Rabs a.
Proof. unfold abs2. cbn [fst snd]. replace (a ^ 2 + 0 ^ 2) with (Rsqr a) by (unfold Rsqr; ring). apply sqrt_Rsqr_abs. Qed.
Lemma abs2_conj p q : abs2 (p, - q) = abs2 (p, q).
Proof. unfold abs2. cbn [fst snd]. ring. Qed.
(* permutations of three *)
Lemma perm3 {A} (l : list A) a b c : Permutation l [a; b; c] -> In l [[a; b; c]; [a; c; b]; [b; a; c]; [b; c; a]; [c; a; b]; [c; b; a]].
Proof.
  intros P. pose proof (Permutation_length P) as L. destruct l as [|x [|y [|z [|w l]]]]; try discriminate L.
  assert (X : In x [a; b; c]) by (apply (Permutation_in _ P); left; reflexivity).
  destruct X as [<-|[<-|[<-|[]]]].
  - apply Permutation_cons_inv in P. apply Permutation_length_2_inv in P. destruct P as [E|E]; inversion E; subst; cbn; tauto.
  - assert (P' : Permutation [y; z] [a; c]). { apply (Permutation_cons_inv (a := b)). apply (Permutation_trans P). apply perm_swap. } apply Permutation_length_2_inv in P'. destruct P' as [E|E]; inversion E; subst; cbn; tauto.
  - assert (P' : Permutation [y; z] [a; b]). { apply (Permutation_cons_inv (a := c)). apply (Permutation_trans P). change [a; b; c] with ([a; b] ++ [c]). apply Permutation_sym. apply Permutation_cons_append. } apply Permutation_length_2_inv in P'. destruct P' as [E|E]; inversion E; subst; cbn; tauto.
Qed.
Section K.
  Variables rtol atol : R.
  Hypothesis A0 : 0 <= atol.
  Lemma kind_small e : small atol e -> kind_of rtol atol e = KZero.
  Proof using. intros H. unfold kind_of. fold (abs2 e). rewrite (proj2 (is0_iff rtol atol _) H). reflexivity. Qed.
  Lemma kind_real a : ~ small atol (a, 0) -> kind_of rtol atol (a, 0) = KReal.
  Proof using A0. intros H. unfold kind_of. fold (abs2 (a, 0)). rewrite (proj2 (is0_niff rtol atol _)) by (apply Rnot_le_lt; exact H). cbn [snd]. rewrite Rabs_R0, (proj2 (is0_iff rtol atol 0) A0). reflexivity. Qed.
  Lemma kind_pair p q : 0 < q -> ~ small atol (p, q) -> (kind_of rtol atol (p, q) = KReal /\ kind_of rtol atol (p, - q) = KReal) \/ (kind_of rtol atol (p, q) = KComplex /\ kind_of rtol atol (p, - q) = KComplex).
  Proof using.
    intros Q H. unfold kind_of. fold (abs2 (p, q)) (abs2 (p, - q)). rewrite abs2_conj. rewrite (proj2 (is0_niff rtol atol _)) by (apply Rnot_le_lt; exact H). cbn [snd]. rewrite Rabs_Ropp. destruct (is0 rtol atol (Rabs q)); [left|right]; split; reflexivity.
  Qed.
  Lemma small_dec e : small atol e \/ ~ small atol e.
  Proof using. unfold small. lra. Qed.
  Lemma small_conj p q : small atol (p, - q) <-> small atol (p, q).
  Proof using. unfold small. rewrite abs2_conj. tauto. Qed.
End K.
Ltac kinds := repeat match goal with H : kind_of _ _ _ = _ |- _ => progress rewrite ?H end.
Ltac run := unfold classify, of_kind; cbn [filter map length]; kinds; cbn [filter map length fst snd Nat.eqb andb hd].

Lemma prod_pos a b : 0 < a -> 0 < b -> 0 < a * b.
Proof. apply Rmult_lt_0_compat. Qed.
Lemma sign3 a b c : (0 < a -> 0 < b -> 0 < c -> 0 < a * b * c) /\ (0 < a -> b < 0 -> c < 0 -> 0 < a * b * c) /\ (a < 0 -> 0 < b -> c < 0 -> 0 < a * b * c) /\ (a < 0 -> b < 0 -> 0 < c -> 0 < a * b * c) /\
  (a < 0 -> b < 0 -> c < 0 -> a * b * c < 0) /\ (a < 0 -> 0 < b -> 0 < c -> a * b * c < 0) /\ (0 < a -> b < 0 -> 0 < c -> a * b * c < 0) /\ (0 < a -> 0 < b -> c < 0 -> a * b * c < 0).
Proof.
  assert (P : forall x y z, 0 < x -> 0 < y -> 0 < z -> 0 < x * y * z) by (intros; repeat apply Rmult_lt_0_compat; assumption).
  repeat split; intros.
  - apply P; assumption.
  - replace (a * b * c) with (a * - b * - c) by ring. apply P; lra.
  - replace (a * b * c) with (- a * b * - c) by ring. apply P; lra.
  - replace (a * b * c) with (- a * - b * c) by ring. apply P; lra.
  - assert (0 < - a * - b * - c) by (apply P; lra). lra.
  - assert (0 < - a * b * c) by (apply P; lra). lra.
  - assert (0 < a * - b * c) by (apply P; lra). lra.
  - assert (0 < a * b * - c) by (apply P; lra). lra.
Qed.
(* a field without divergence: type A for a positive determinant, type B for a negative one *)
Theorem C56_type : forall rtol atol l, 0 <= atol -> eigenvalues l -> trace l = 0 -> (forall e, In e l -> ~ small atol e) ->
  (classify rtol atol l = NA <-> 0 < det l) /\ (classify rtol atol l = NB <-> det l < 0).
Proof.
  intros rtol atol l A0 [(a & b & c & P)|(a & p & q & Q & P)] T S; apply perm3 in P.
  - assert (Sa : ~ small atol (a, 0)) by (apply S; destruct P as [<-|[<-|[<-|[<-|[<-|[<-|[]]]]]]]; cbn; tauto). assert (Sb : ~ small atol (b, 0)) by (apply S; destruct P as [<-|[<-|[<-|[<-|[<-|[<-|[]]]]]]]; cbn; tauto). assert (Sc : ~ small atol (c, 0)) by (apply S; destruct P as [<-|[<-|[<-|[<-|[<-|[<-|[]]]]]]]; cbn; tauto).
    assert (Ka := kind_real rtol atol A0 a Sa). assert (Kb := kind_real rtol atol A0 b Sb). assert (Kc := kind_real rtol atol A0 c Sc). unfold small in Sa, Sb, Sc. rewrite abs2_real in Sa, Sb, Sc.
    assert (Na : a <> 0) by (intros ->; rewrite Rabs_R0 in Sa; contradiction). assert (Nb : b <> 0) by (intros ->; rewrite Rabs_R0 in Sb; contradiction). assert (Nc : c <> 0) by (intros ->; rewrite Rabs_R0 in Sc; contradiction).
    assert (E : det l = a * b * c /\ a + b + c = 0) by (unfold det; destruct P as [<-|[<-|[<-|[<-|[<-|[<-|[]]]]]]]; cbn [fold_right cmul fst snd trace] in *; split; (ring || lra)). destruct E as (-> & E). pose proof (sign3 a b c) as (S1 & S2 & S3 & S4 & S5 & S6 & S7 & S8).
    assert (R : classify rtol atol l = if Rlt_dec 0 a then (if Rlt_dec 0 b then NB else if Rlt_dec 0 c then NB else NA) else if Rlt_dec 0 b then (if Rlt_dec 0 c then NB else NA) else NA).
    { destruct P as [<-|[<-|[<-|[<-|[<-|[<-|[]]]]]]]; run; destruct (Rlt_dec 0 a), (Rlt_dec 0 b), (Rlt_dec 0 c); cbn [length Nat.eqb]; try reflexivity; lra. }
    rewrite R. clear R S P Sa Sb Sc Ka Kb Kc. destruct (Rlt_dec 0 a), (Rlt_dec 0 b), (Rlt_dec 0 c); try lra.
    + specialize (S8 ltac:(lra) ltac:(lra) ltac:(lra)). repeat split; intros; try discriminate; try reflexivity; lra.
    + specialize (S7 ltac:(lra) ltac:(lra) ltac:(lra)). repeat split; intros; try discriminate; try reflexivity; lra.
    + specialize (S2 ltac:(lra) ltac:(lra) ltac:(lra)). repeat split; intros; try discriminate; try reflexivity; lra.
    + specialize (S6 ltac:(lra) ltac:(lra) ltac:(lra)). repeat split; intros; try discriminate; try reflexivity; lra.
    + specialize (S3 ltac:(lra) ltac:(lra) ltac:(lra)). repeat split; intros; try discriminate; try reflexivity; lra.
    + specialize (S4 ltac:(lra) ltac:(lra) ltac:(lra)). repeat split; intros; try discriminate; try reflexivity; lra.
  - assert (Sa : ~ small atol (a, 0)) by (apply S; destruct P as [<-|[<-|[<-|[<-|[<-|[<-|[]]]]]]]; cbn; tauto). assert (Sp : ~ small atol (p, q)) by (apply S; destruct P as [<-|[<-|[<-|[<-|[<-|[<-|[]]]]]]]; cbn; tauto).
    assert (Ka := kind_real rtol atol A0 a Sa). assert (Kp := kind_pair rtol atol p q Q Sp). unfold small in Sa. rewrite abs2_real in Sa. assert (Na : a <> 0) by (intros ->; rewrite Rabs_R0 in Sa; contradiction).
    assert (E : det l = a * (p * p + q * q) /\ a + 2 * p = 0) by (unfold det; destruct P as [<-|[<-|[<-|[<-|[<-|[<-|[]]]]]]]; cbn [fold_right cmul fst snd trace] in *; split; (ring || lra)). destruct E as (-> & E).
    assert (R : classify rtol atol l = if Rlt_dec 0 a then NA else NB).
    { destruct Kp as [(K1 & K2)|(K1 & K2)]; destruct P as [<-|[<-|[<-|[<-|[<-|[<-|[]]]]]]]; run; try (destruct (Rlt_dec 0 a), (Rlt_dec 0 p); cbn [length Nat.eqb]; try reflexivity; lra);
        (rewrite (proj2 (is0_iff rtol atol _)); [reflexivity|]; match goal with |- Rabs ?e <= _ => replace e with 0 by ring end; rewrite Rabs_R0; exact A0). }
    rewrite R. assert (W : 0 < p * p + q * q) by (pose proof (Rmult_lt_0_compat q q Q Q); pose proof (Rle_0_sqr p); unfold Rsqr in *; lra). destruct (Rlt_dec 0 a) as [L|L].
    + pose proof (Rmult_lt_0_compat _ _ L W). repeat split; intros; try discriminate; try reflexivity; lra.
    + assert (0 < - a * (p * p + q * q)) by (apply Rmult_lt_0_compat; lra). repeat split; intros; try discriminate; try reflexivity; lra.
Qed.
Print Assumptions C56_type.

(* how many eigenvalues are zero to the tolerance *)
Definition zeros (atol : R) (l : list cplx) : nat := length (filter (fun e => if Rle_dec (sqrt (abs2 e)) atol then true else false) l).
Lemma cnt_real (rtol atol : R) a (f : list cplx -> nat) : 0 <= atol -> (kind_of rtol atol (a, 0) = KZero /\ sqrt (abs2 (a, 0)) <= atol) \/ (kind_of rtol atol (a, 0) = KReal /\ ~ sqrt (abs2 (a, 0)) <= atol).
Proof. intros A0. destruct (small_dec atol (a, 0)) as [S|S]; [left; split; [apply kind_small, S|exact S]|right; split; [apply kind_real; assumption|exact S]]. Qed.
(* the classification never raises; one zero is type O, with none it is A or B, and with more the null has no type *)
Theorem C56_degenerate : forall rtol atol l, 0 <= atol -> eigenvalues l ->
  match zeros atol l with 0%nat => classify rtol atol l = NA \/ classify rtol atol l = NB | 1%nat => classify rtol atol l = NO | _ => classify rtol atol l = Unknown end.
Proof.
  intros rtol atol l A0 [(a & b & c & P)|(a & p & q & Q & P)]; apply perm3 in P; unfold zeros.
  - destruct (cnt_real rtol atol a (@length _) A0) as [(Ka & Sa)|(Ka & Sa)], (cnt_real rtol atol b (@length _) A0) as [(Kb & Sb)|(Kb & Sb)], (cnt_real rtol atol c (@length _) A0) as [(Kc & Sc)|(Kc & Sc)];
      destruct P as [<-|[<-|[<-|[<-|[<-|[<-|[]]]]]]]; cbn [filter]; repeat match goal with |- context [Rle_dec (sqrt (abs2 ?e)) atol] => destruct (Rle_dec (sqrt (abs2 e)) atol); try contradiction end; cbn [length]; run; try reflexivity;
      (destruct (Nat.eqb _ 1); [left|right]; reflexivity).
  - assert (Kp : (kind_of rtol atol (p, q) = KZero /\ kind_of rtol atol (p, - q) = KZero /\ sqrt (abs2 (p, q)) <= atol) \/ (~ sqrt (abs2 (p, q)) <= atol /\ ((kind_of rtol atol (p, q) = KReal /\ kind_of rtol atol (p, - q) = KReal) \/ (kind_of rtol atol (p, q) = KComplex /\ kind_of rtol atol (p, - q) = KComplex)))).
    { destruct (small_dec atol (p, q)) as [S|S]; [left; split; [apply kind_small, S|split; [apply kind_small, small_conj, S|exact S]]|right; split; [exact S|apply kind_pair; assumption]]. }
    destruct (cnt_real rtol atol a (@length _) A0) as [(Ka & Sa)|(Ka & Sa)]; destruct Kp as [(K1 & K2 & Sp)|(Sp & [(K1 & K2)|(K1 & K2)])];
      destruct P as [<-|[<-|[<-|[<-|[<-|[<-|[]]]]]]]; cbn [filter]; rewrite ?abs2_conj; repeat match goal with |- context [Rle_dec (sqrt (abs2 ?e)) atol] => destruct (Rle_dec (sqrt (abs2 e)) atol); try contradiction end; cbn [length]; run; try reflexivity;
      try (destruct (Nat.eqb _ 1); [left|right]; reflexivity);
      (rewrite (proj2 (is0_iff rtol atol _)); [destruct (Rlt_dec 0 a); [left|right]; reflexivity|]; match goal with |- Rabs ?e <= _ => replace e with 0 by ring end; rewrite Rabs_R0; exact A0).
Qed.
Print Assumptions C56_degenerate.

(* the reversed field: A becomes B and B becomes A; O stays O *)
Definition neg (l : list cplx) : list cplx := map (fun e => (- fst e, - snd e)) l.
Lemma eig_neg l : eigenvalues l -> eigenvalues (neg l).
Proof.
  intros [(a & b & c & P)|(a & p & q & Q & P)]; [left; exists (- a), (- b), (- c)|right; exists (- a), (- p), q; split; [exact Q|]]; apply (Permutation_map (fun e => (- fst e, - snd e))) in P; cbn [map fst snd] in P; rewrite ?Ropp_0, ?Ropp_involutive in P; [exact P|].
  apply (Permutation_trans P). apply perm_skip, perm_swap.
Qed.
Lemma trace_neg l : trace (neg l) = - trace l.
Proof. induction l as [|e l IH]; cbn [neg map trace fold_right fst]; [ring|]. unfold trace, neg in IH. rewrite IH. ring. Qed.
Lemma abs2_neg e : abs2 (- fst e, - snd e) = abs2 e.
Proof. unfold abs2. cbn [fst snd]. ring. Qed.
Lemma zeros_neg atol l : zeros atol (neg l) = zeros atol l.
Proof. unfold zeros, neg. induction l as [|e l IH]; [reflexivity|]. cbn [map filter]. rewrite abs2_neg. destruct (Rle_dec (sqrt (abs2 e)) atol); cbn [length]; congruence. Qed.
Lemma det_neg l : eigenvalues l -> det (neg l) = - det l.
Proof. intros [(a & b & c & P)|(a & p & q & Q & P)]; apply perm3 in P; unfold det, neg; destruct P as [<-|[<-|[<-|[<-|[<-|[<-|[]]]]]]]; cbn [map fold_right cmul fst snd]; ring. Qed.
Lemma zeros_none atol l : zeros atol l = 0%nat <-> forall e, In e l -> ~ small atol e.
Proof.
  unfold zeros. induction l as [|x l IH]; [split; [intros _ e []|reflexivity]|]. cbn [filter]. destruct (Rle_dec (sqrt (abs2 x)) atol) as [L|L].
  - split; [discriminate|]. intros H. exfalso. exact (H x (or_introl eq_refl) L).
  - rewrite IH. split; [intros H e [<-|I]; [exact L|exact (H e I)]|intros H e I; apply H; right; exact I].
Qed.
Theorem C56_reverse : forall rtol atol l, 0 <= atol -> eigenvalues l -> trace l = 0 ->
  (classify rtol atol l = NA <-> classify rtol atol (neg l) = NB) /\ (classify rtol atol l = NB <-> classify rtol atol (neg l) = NA) /\ (classify rtol atol l = NO <-> classify rtol atol (neg l) = NO).
Proof.
  intros rtol atol l A0 E T. pose proof (C56_degenerate rtol atol l A0 E) as D. pose proof (C56_degenerate rtol atol (neg l) A0 (eig_neg l E)) as D'. rewrite zeros_neg in D'. destruct (zeros atol l) as [|[|n]] eqn:Z.
  - assert (Z' : zeros atol (neg l) = 0%nat) by (rewrite zeros_neg; exact Z). rewrite zeros_none in Z, Z'. destruct (C56_type rtol atol l A0 E T Z) as (P1 & P2). assert (T' : trace (neg l) = 0) by (rewrite trace_neg, T; ring). destruct (C56_type rtol atol (neg l) A0 (eig_neg l E) T' Z') as (P3 & P4). rewrite P1, P2, P3, P4, (det_neg l E). split; [split; lra|]. split; [split; lra|]. split; intros F; exfalso; [destruct D|destruct D']; congruence.
  - rewrite D, D'. repeat split; congruence.
  - rewrite D, D'. repeat split; congruence.
Qed.
Print Assumptions C56_reverse.

(* the three lists hold the positions of the nulls of their type, each once and in order; no null is in two of them, and only a null without a type is in none *)
Lemma partition_from rtol atol : forall evs i o a b, classify_nulls rtol atol i evs = Some (o, a, b) ->
  (forall n, In n o <-> (i <= n)%nat /\ exists e, nth_error evs (n - i) = Some e /\ classify rtol atol e = NO) /\
  (forall n, In n a <-> (i <= n)%nat /\ exists e, nth_error evs (n - i) = Some e /\ classify rtol atol e = NA) /\
  (forall n, In n b <-> (i <= n)%nat /\ exists e, nth_error evs (n - i) = Some e /\ classify rtol atol e = NB) /\
  StronglySorted lt o /\ StronglySorted lt a /\ StronglySorted lt b.
Proof.
  induction evs as [|e evs IH]; intros i o a b H.
  - cbn [classify_nulls] in H. injection H as <- <- <-. assert (Z : forall n t, False <-> (i <= n)%nat /\ exists e, nth_error [] (n - i) = Some e /\ classify rtol atol e = t) by (intros n t; split; [intros []|intros (_ & e & F & _); destruct (n - i)%nat; discriminate F]). cbn [In]. split; [intros n; apply Z|]. split; [intros n; apply Z|]. split; [intros n; apply Z|]. split; [constructor|split; constructor].
  - cbn [classify_nulls] in H. specialize (IH (S i)). destruct (classify_nulls rtol atol (S i) evs) as [((o' & a') & b')|] eqn:R; [|destruct (classify rtol atol e); discriminate H].
    specialize (IH o' a' b' eq_refl). destruct IH as (Io & Ia & Ib & So & Sa & Sb).
    assert (St : forall t n, (i <= n)%nat /\ (exists e', nth_error (e :: evs) (n - i) = Some e' /\ classify rtol atol e' = t) <-> (n = i /\ classify rtol atol e = t) \/ ((S i <= n)%nat /\ exists e', nth_error evs (n - S i) = Some e' /\ classify rtol atol e' = t)).
    { intros t n. split.
      - intros (L & e' & N & K). destruct (Nat.eq_dec n i) as [->|Ne]; [left; rewrite Nat.sub_diag in N; cbn in N; split; [reflexivity|congruence]|right; split; [lia|]]. replace (n - i)%nat with (S (n - S i)) in N by lia. cbn in N. exists e'. split; assumption.
      - intros [(-> & K)|(L & e' & N & K)]; [split; [lia|]; exists e; rewrite Nat.sub_diag; split; [reflexivity|exact K]|split; [lia|]; exists e'; replace (n - i)%nat with (S (n - S i)) by lia; split; [exact N|exact K]]. }
    assert (Fo : Forall (lt i) o') by (apply Forall_forall; intros n I; apply Io in I; lia). assert (Fa : Forall (lt i) a') by (apply Forall_forall; intros n I; apply Ia in I; lia). assert (Fb : Forall (lt i) b') by (apply Forall_forall; intros n I; apply Ib in I; lia).
    destruct (classify rtol atol e) eqn:K; try discriminate H; injection H as <- <- <-;
      (split; [intros n; rewrite St; rewrite <- Io|split; [intros n; rewrite St; rewrite <- Ia|split; [intros n; rewrite St; rewrite <- Ib|repeat split; try constructor; assumption]]]); cbn [In]; split; try tauto; try (intros [F|F]; [left; split; [congruence|reflexivity]|right; exact F]; fail); try (intros [(F & G)|F]; [first [discriminate G|left; congruence]|tauto]).
Qed.
Theorem C56_partition : forall rtol atol evs o a b, classify_nulls rtol atol 0 evs = Some (o, a, b) ->
  (forall n, In n o <-> exists e, nth_error evs n = Some e /\ classify rtol atol e = NO) /\
  (forall n, In n a <-> exists e, nth_error evs n = Some e /\ classify rtol atol e = NA) /\
  (forall n, In n b <-> exists e, nth_error evs n = Some e /\ classify rtol atol e = NB) /\
  StronglySorted lt o /\ StronglySorted lt a /\ StronglySorted lt b.
Proof.
  intros rtol atol evs o a b H. apply partition_from in H. destruct H as (A & B & C & D).
  assert (Q : forall t n, ((0 <= n)%nat /\ (exists e, nth_error evs (n - 0) = Some e /\ classify rtol atol e = t)) <-> exists e, nth_error evs n = Some e /\ classify rtol atol e = t) by (intros t n; rewrite Nat.sub_0_r; split; [intros (_ & X); exact X|intros X; split; [lia|exact X]]).
  split; [intros n; rewrite A; apply Q|]. split; [intros n; rewrite B; apply Q|]. split; [intros n; rewrite C; apply Q|exact D].
Qed.
Print Assumptions C56_partition.
(* no set of Jacobians makes it raise *)
Theorem C56_total : forall rtol atol evs, 0 <= atol -> Forall eigenvalues evs -> exists r, classify_nulls rtol atol 0 evs = Some r.
Proof.
  intros rtol atol evs A0 F. generalize 0%nat. induction F as [|e evs E F IH]; intros i; [eexists; reflexivity|]. cbn [classify_nulls]. destruct (IH (S i)) as (((o & a) & b) & ->). pose proof (C56_degenerate rtol atol e A0 E) as D.
  destruct (classify rtol atol e); try (eexists; reflexivity). exfalso. destruct (zeros atol e) as [|[|n]]; [destruct D|..]; discriminate.
Qed.
Print Assumptions C56_total.
(* a null whose Jacobian has two eigenvalues close to zero is in no list *)
Theorem C56_dropped_refuted : forall rtol atol evs o a b n e, 0 <= atol -> classify_nulls rtol atol 0 evs = Some (o, a, b) -> nth_error evs n = Some e -> eigenvalues e -> (2 <= zeros atol e)%nat ->
  ~ In n o /\ ~ In n a /\ ~ In n b.
Proof.
  intros rtol atol evs o a b n e A0 H N E Z. apply C56_partition in H. destruct H as (A & B & C & _). pose proof (C56_degenerate rtol atol e A0 E) as D. destruct (zeros atol e) as [|[|k]]; [lia|lia|]. rewrite A, B, C. repeat split; intros (e' & N' & K); congruence.
Qed.
Print Assumptions C56_dropped_refuted.
(* with divergence the two types are not told apart: a source and a sink are both type B *)
Theorem C56_divergent_refuted : forall rtol, classify rtol (1 / 10 ^ 8) [(1, 0); (1, 0); (1, 0)] = NB /\ classify rtol (1 / 10 ^ 8) [(-1, 0); (-1, 0); (-1, 0)] = NB.
Proof.
  intros rtol. assert (A0 : 0 <= 1 / 10 ^ 8) by (cbn [pow]; lra). assert (K1 := kind_real rtol (1 / 10 ^ 8) A0 1). assert (K2 := kind_real rtol (1 / 10 ^ 8) A0 (-1)). unfold small in K1, K2. rewrite abs2_real in K1, K2. rewrite (Rabs_right 1) in K1 by lra. rewrite (Rabs_left (-1)) in K2 by lra. specialize (K1 ltac:(cbn [pow]; lra)). specialize (K2 ltac:(cbn [pow]; lra)).
  split; run; destruct (Rlt_dec 0 _); try lra; reflexivity.
Qed.
Print Assumptions C56_divergent_refuted.

(** * the hypotheses can be met *)
Example C56_nonvacuous : let l := [(-2, 0); (1, 3); (1, -3)] in eigenvalues l /\ trace l = 0 /\ (forall e, In e l -> ~ small (1 / 10 ^ 8) e) /\ classify 0 (1 / 10 ^ 8) l = NB.
Proof.
  cbv zeta. assert (E : eigenvalues [(-2, 0); (1, 3); (1, -3)]) by (right; exists (-2), 1, 3; split; [lra|apply Permutation_refl]). assert (T : trace [(-2, 0); (1, 3); (1, -3)] = 0) by (cbn; lra).
  assert (S : forall e, In e [(-2, 0); (1, 3); (1, -3)] -> ~ small (1 / 10 ^ 8) e).
  { intros e I F. unfold small in F. assert (Q : 1 <= sqrt (abs2 e)) by (rewrite <- sqrt_1; apply sqrt_le_1_alt; destruct I as [<-|[<-|[<-|[]]]]; unfold abs2; cbn [fst snd pow]; lra). cbn [pow] in F. lra. }
  repeat split; try assumption. apply (C56_type 0 (1 / 10 ^ 8) _ ltac:(cbn [pow]; lra) E T S). unfold det. cbn [fold_right cmul fst snd]. lra.
Qed.
Example C56_zero_nonvacuous : eigenvalues [(0, 0); (1, 0); (-1, 0)] /\ zeros 0 [(0, 0); (1, 0); (-1, 0)] = 1%nat.
Proof.
  split; [left; exists 0, 1, (-1); apply Permutation_refl|]. unfold zeros. cbn [filter]. rewrite !abs2_real, Rabs_R0, (Rabs_right 1), (Rabs_left (-1)) by lra. repeat match goal with |- context [Rle_dec ?a ?b] => destruct (Rle_dec a b); try lra end. reflexivity.
Qed.
