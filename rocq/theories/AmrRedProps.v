(** C36: reductions of fields with several patches. *)
From Coq Require Import List ZArith QArith Qminmax Qabs Bool Arith Lia ZifyBool ZifyNat Lqa Setoid.
From Verif Require Import AmrRedModel.
Import ListNotations.
Local Open Scope Q_scope.

(** ** specification: a reduction of all cells *)
Definition cells (ps : list patch) : list Q := concat ps.
Definition is_min (x : Q) (l : list Q) : Prop := (exists y, In y l /\ y == x) /\ forall y, In y l -> x <= y.
Definition is_max (x : Q) (l : list Q) : Prop := (exists y, In y l /\ y == x) /\ forall y, In y l -> y <= x.
(** the mean: the number that times the number of cells is their sum *)
Definition is_mean (x : Q) (l : list Q) : Prop := x * inject_Z (Z.of_nat (length l)) == fold_right Qplus 0 l.

(** ** a reduction to one number *)
Definition reducing (m : method) (f : patch -> Q) (ok : patch -> Prop) : Prop :=
  forall l, ok l -> m l = Some [f l].
Lemma wrap_reducing m f (ok : patch -> Prop) ps : reducing m f ok -> ps <> [] -> Forall ok ps -> ok (map f ps) ->
  wrap m ps = Arr [f (map f ps)].
Proof.
  intros R NE F O. unfold wrap.
  assert (E : all_some (map m ps) = Some (map (fun l => [f l]) ps)).
  { clear NE O. induction F as [|p ps Hp _ IH]; [reflexivity|]. cbn [map all_some]. rewrite (R p Hp), IH. reflexivity. }
  rewrite E. destruct ps as [|p ps]; [contradiction|]. cbn [map length]. rewrite Nat.eqb_refl.
  assert (G : forallb (fun r : list Q => (length r =? 1)%nat) (map (fun l => [f l]) ps) = true).
  { apply forallb_forall. intros r Hr. apply in_map_iff in Hr as (q & <- & _). reflexivity. }
  rewrite G. replace (concat ([f p] :: map (fun l => [f l]) ps)) with (map f (p :: ps)).
  - rewrite (R _ O). reflexivity.
  - cbn [concat map app]. f_equal. clear. induction ps as [|q ps IH]; [reflexivity|]. cbn. rewrite IH. reflexivity.
Qed.
Definition ne (l : patch) : Prop := l <> [].
Lemma ne_map {A} (f : A -> Q) (l : list A) : l <> [] -> ne (map f l).
Proof. destruct l; [contradiction|discriminate]. Qed.

Lemma q_sum_app a b : q_sum (a ++ b) == q_sum a + q_sum b.
Proof. unfold q_sum. induction a as [|x a IH]; cbn [fold_right app]; [ring|]. rewrite IH. ring. Qed.
Lemma q_prod_app a b : q_prod (a ++ b) == q_prod a * q_prod b.
Proof. unfold q_prod. induction a as [|x a IH]; cbn [fold_right app]; [ring|]. rewrite IH. ring. Qed.
Lemma sum_of_sums ps : q_sum (map q_sum ps) == q_sum (concat ps).
Proof. induction ps as [|p ps IH]; [reflexivity|]. cbn [map concat]. rewrite q_sum_app, <- IH. unfold q_sum. cbn [fold_right]. ring. Qed.
Lemma prod_of_prods ps : q_prod (map q_prod ps) == q_prod (concat ps).
Proof. induction ps as [|p ps IH]; [reflexivity|]. cbn [map concat]. rewrite q_prod_app, <- IH. unfold q_prod. cbn [fold_right]. ring. Qed.

(** ** sum and product *)
Theorem C36_sum : forall ps, ps <> [] ->
  exists x, wrap m_sum ps = Arr [x] /\ x == fold_right Qplus 0 (cells ps).
Proof.
  intros ps NE. eexists. split; [apply (wrap_reducing m_sum q_sum (fun _ => True)); auto|].
  - intros l _. reflexivity.
  - apply Forall_forall. auto.
  - apply sum_of_sums.
Qed.
Print Assumptions C36_sum.
Theorem C36_prod : forall ps, ps <> [] ->
  exists x, wrap m_prod ps = Arr [x] /\ x == fold_right Qmult 1 (cells ps).
Proof.
  intros ps NE. eexists. split; [apply (wrap_reducing m_prod q_prod (fun _ => True)); auto|].
  - intros l _. reflexivity.
  - apply Forall_forall. auto.
  - apply prod_of_prods.
Qed.
Print Assumptions C36_prod.

(** ** any and all *)
Lemma truth_of_bool b : truth (of_bool b) = b.
Proof. destruct b; reflexivity. Qed.
Lemma of_bool_iff b : (of_bool b == 1 <-> b = true) /\ (of_bool b == 0 <-> b = false).
Proof. destruct b; split; split; intros H; try reflexivity; try discriminate; cbn in H; exfalso; revert H; discriminate. Qed.
Theorem C36_any : forall ps, ps <> [] ->
  exists x, wrap m_any ps = Arr [x] /\ (x == 1 \/ x == 0) /\ (x == 1 <-> exists c, In c (cells ps) /\ ~ c == 0).
Proof.
  intros ps NE. eexists. split; [apply (wrap_reducing m_any (fun l => of_bool (existsb truth l)) (fun _ => True)); auto|].
  - intros l _. reflexivity.
  - apply Forall_forall. auto.
  - set (b := existsb truth _). destruct (of_bool_iff b) as [B1 B0]. split; [destruct b; [left|right]; reflexivity|].
    rewrite B1. unfold b. rewrite existsb_exists. unfold cells. split.
    + intros (y & Hy & T). apply in_map_iff in Hy as (p & <- & Hp). rewrite truth_of_bool in T.
      apply existsb_exists in T as (c & Hc & T). exists c. split; [apply in_concat; eauto|].
      intros E. apply Qeq_bool_iff in E. unfold truth in T. rewrite E in T. discriminate.
    + intros (c & Hc & Nc). apply in_concat in Hc as (p & Hp & Hc). exists (of_bool (existsb truth p)).
      split; [apply (in_map (fun l => of_bool (existsb truth l))); exact Hp|]. rewrite truth_of_bool.
      apply existsb_exists. exists c. split; [exact Hc|]. unfold truth. destruct (Qeq_bool c 0) eqn:E; [|reflexivity].
      apply Qeq_bool_iff in E. contradiction.
Qed.
Print Assumptions C36_any.
Theorem C36_all : forall ps, ps <> [] ->
  exists x, wrap m_all ps = Arr [x] /\ (x == 1 \/ x == 0) /\ (x == 1 <-> forall c, In c (cells ps) -> ~ c == 0).
Proof.
  intros ps NE. eexists. split; [apply (wrap_reducing m_all (fun l => of_bool (forallb truth l)) (fun _ => True)); auto|].
  - intros l _. reflexivity.
  - apply Forall_forall. auto.
  - set (b := forallb truth _). destruct (of_bool_iff b) as [B1 B0]. split; [destruct b; [left|right]; reflexivity|].
    rewrite B1. unfold b. rewrite forallb_forall. unfold cells. split.
    + intros H c Hc. apply in_concat in Hc as (p & Hp & Hc).
      pose proof (H _ (in_map (fun l => of_bool (forallb truth l)) ps p Hp)) as T. cbn beta in T. rewrite truth_of_bool in T.
      rewrite forallb_forall in T. specialize (T c Hc). intros E. apply Qeq_bool_iff in E. unfold truth in T. rewrite E in T. discriminate.
    + intros H y Hy. apply in_map_iff in Hy as (p & <- & Hp). rewrite truth_of_bool. apply forallb_forall. intros c Hc.
      unfold truth. destruct (Qeq_bool c 0) eqn:E; [|reflexivity]. apply Qeq_bool_iff in E.
      exfalso. apply (H c); [apply in_concat; eauto|exact E].
Qed.
Print Assumptions C36_all.

(** ** smallest and largest *)
Lemma q_min1_spec l : forall x, is_min (q_min1 x l) (x :: l).
Proof.
  induction l as [|y l IH]; intros x; cbn [q_min1 fold_left].
  - split; [exists x; split; [left; auto|reflexivity]|]. intros z [<-|[]]. lra.
  - unfold q_min1 in IH. destruct (Qle_bool x y) eqn:E; [apply Qle_bool_iff in E|].
    + destruct (IH x) as [(z & Hz & Ez) H2]. split.
      * exists z. split; [destruct Hz; [left; auto|right; right; auto]|exact Ez].
      * intros w [<-|[<-|Hw]]; [apply H2; left; auto| |apply H2; right; auto].
        specialize (H2 x (or_introl eq_refl)). lra.
    + assert (L : y < x) by (destruct (Qlt_le_dec y x) as [L|L]; [exact L|apply Qle_bool_iff in L; congruence]).
      destruct (IH y) as [(z & Hz & Ez) H2]. split.
      * exists z. split; [right; exact Hz|exact Ez].
      * intros w [<-|Hw]; [|apply H2; exact Hw]. specialize (H2 y (or_introl eq_refl)). lra.
Qed.
Lemma q_max1_spec l : forall x, is_max (q_max1 x l) (x :: l).
Proof.
  induction l as [|y l IH]; intros x; cbn [q_max1 fold_left].
  - split; [exists x; split; [left; auto|reflexivity]|]. intros z [<-|[]]. lra.
  - unfold q_max1 in IH. destruct (Qle_bool y x) eqn:E; [apply Qle_bool_iff in E|].
    + destruct (IH x) as [(z & Hz & Ez) H2]. split.
      * exists z. split; [destruct Hz; [left; auto|right; right; auto]|exact Ez].
      * intros w [<-|[<-|Hw]]; [apply H2; left; auto| |apply H2; right; auto].
        specialize (H2 x (or_introl eq_refl)). lra.
    + assert (L : x < y) by (destruct (Qlt_le_dec x y) as [L|L]; [exact L|apply Qle_bool_iff in L; congruence]).
      destruct (IH y) as [(z & Hz & Ez) H2]. split.
      * exists z. split; [right; exact Hz|exact Ez].
      * intros w [<-|Hw]; [|apply H2; exact Hw]. specialize (H2 y (or_introl eq_refl)). lra.
Qed.
Definition f_min (l : patch) : Q := match l with [] => 0 | x :: r => q_min1 x r end.
Definition f_max (l : patch) : Q := match l with [] => 0 | x :: r => q_max1 x r end.
Lemma f_min_spec l : l <> [] -> is_min (f_min l) l.
Proof. destruct l; [contradiction|]. intros _. apply q_min1_spec. Qed.
Lemma f_max_spec l : l <> [] -> is_max (f_max l) l.
Proof. destruct l; [contradiction|]. intros _. apply q_max1_spec. Qed.

Theorem C36_min : forall ps, ps <> [] -> Forall (fun p => p <> []) ps ->
  exists x, wrap m_min ps = Arr [x] /\ is_min x (cells ps).
Proof.
  intros ps NE F. eexists. split.
  - apply (wrap_reducing m_min f_min ne); auto; [intros [|] H; [contradiction|reflexivity]|apply ne_map; auto].
  - rewrite Forall_forall in F. destruct (f_min_spec (map f_min ps) (ne_map f_min ps NE)) as [(y & Hy & Ey) H]. split.
    + apply in_map_iff in Hy as (p & <- & Hp). destruct (f_min_spec p (F p Hp)) as [(z & Hz & Ez) _].
      exists z. split; [apply in_concat; eauto|]. lra.
    + intros c Hc. apply in_concat in Hc as (p & Hp & Hc). destruct (f_min_spec p (F p Hp)) as [_ Hm].
      specialize (Hm c Hc). specialize (H (f_min p) (in_map f_min ps p Hp)). lra.
Qed.
Print Assumptions C36_min.
Theorem C36_max : forall ps, ps <> [] -> Forall (fun p => p <> []) ps ->
  exists x, wrap m_max ps = Arr [x] /\ is_max x (cells ps).
Proof.
  intros ps NE F. eexists. split.
  - apply (wrap_reducing m_max f_max ne); auto; [intros [|] H; [contradiction|reflexivity]|apply ne_map; auto].
  - rewrite Forall_forall in F. destruct (f_max_spec (map f_max ps) (ne_map f_max ps NE)) as [(y & Hy & Ey) H]. split.
    + apply in_map_iff in Hy as (p & <- & Hp). destruct (f_max_spec p (F p Hp)) as [(z & Hz & Ez) _].
      exists z. split; [apply in_concat; eauto|]. lra.
    + intros c Hc. apply in_concat in Hc as (p & Hp & Hc). destruct (f_max_spec p (F p Hp)) as [_ Hm].
      specialize (Hm c Hc). specialize (H (f_max p) (in_map f_max ps p Hp)). lra.
Qed.
Print Assumptions C36_max.

(** ** mean *)
Definition f_mean (l : patch) : Q := q_sum l / inject_Z (Z.of_nat (length l)).
Lemma q_sum_scale {A} (l : list A) (f g : A -> Q) k : (forall x, In x l -> k * f x == g x) ->
  k * q_sum (map f l) == q_sum (map g l).
Proof.
  unfold q_sum. induction l as [|x l IH]; intros H; cbn [map fold_right]; [ring|]. rewrite Qmult_plus_distr_r, (H x (or_introl eq_refl)).
  rewrite IH by (intros; apply H; right; auto). reflexivity.
Qed.
Lemma len_neq (l : list Q) : l <> [] -> ~ inject_Z (Z.of_nat (length l)) == 0.
Proof. intros N E. destruct l; [contradiction|]. unfold Qeq in E. cbn in E. lia. Qed.
(** With patches of one size the mean is the mean of all cells. *)
Theorem C36_mean_same_size : forall ps n, ps <> [] -> (0 < n)%nat -> Forall (fun p => length p = n) ps ->
  exists x, wrap m_mean ps = Arr [x] /\ is_mean x (cells ps).
Proof.
  intros ps n NE Hn F. eexists. split.
  - apply (wrap_reducing m_mean f_mean ne); auto.
    + intros [|] H; [contradiction|reflexivity].
    + eapply Forall_impl; [|exact F]. intros p Hp. unfold ne. intros ->. cbn in Hp. lia.
    + apply ne_map; auto.
  - unfold is_mean, cells. fold (q_sum (concat ps)). rewrite <- sum_of_sums. unfold f_mean at 1. rewrite map_length.
    rewrite Forall_forall in F.
    assert (K : inject_Z (Z.of_nat n) * q_sum (map f_mean ps) == q_sum (map q_sum ps)).
    { apply q_sum_scale. intros p Hp. unfold f_mean. rewrite (F p Hp). field.
      intros E. unfold Qeq in E. cbn in E. lia. }
    assert (L : length (concat ps) = (length ps * n)%nat).
    { clear NE K. induction ps as [|p ps IH]; [reflexivity|]. cbn [concat length]. rewrite app_length, IH, (F p) by (auto; left; auto) || (intros; apply F; right; auto). lia. }
    rewrite L, Nat2Z.inj_mul, inject_Z_mult, <- K. field.
    intros E. unfold Qeq in E. cbn in E. destruct ps; [contradiction|cbn in E; lia].
Qed.
Print Assumptions C36_mean_same_size.

(** In general it is the mean of the means of the patches. *)
Theorem C36_mean_refuted :
  (forall ps, ps <> [] -> Forall (fun p => p <> []) ps ->
     wrap m_mean ps = Arr [f_mean (map f_mean ps)]) /\
  exists ps x, Forall (fun p => p <> []) ps /\ wrap m_mean ps = Arr [x] /\ ~ is_mean x (cells ps).
Proof.
  split.
  - intros ps NE F. apply (wrap_reducing m_mean f_mean ne); auto; [intros [|] H; [contradiction|reflexivity]|apply ne_map; auto].
  - exists [[0; 0; 0]; [4]]. eexists. split; [repeat constructor; discriminate|]. split; [reflexivity|].
    unfold is_mean. vm_compute. discriminate.
Qed.
Print Assumptions C36_mean_refuted.

(** The standard deviation (whatever square root is used) of patches that are each
    constant is 0, even if they differ. *)
Definition is_std (s : Q) (l : list Q) : Prop :=
  0 <= s /\ forall mu, is_mean mu l -> is_mean (s * s) (map (fun x => (x - mu) * (x - mu)) l).
Theorem C36_std_refuted : forall std : patch -> Q,
  (forall l, l <> [] -> std l == 0 <-> forall x y, In x l -> In y l -> x == y) ->
  exists ps x, wrap (fun l => match l with [] => None | _ => Some [std l] end) ps = Arr [x] /\ x == 0 /\
    ~ is_std x (cells ps).
Proof.
  intros std H. exists [[0; 0]; [1; 1]], (std [std [0; 0]; std [1; 1]]). split; [reflexivity|].
  assert (Z0 : std [0; 0] == 0) by (apply H; [discriminate|]; intros x y [<-|[<-|[]]] [<-|[<-|[]]]; reflexivity).
  assert (Z1 : std [1; 1] == 0) by (apply H; [discriminate|]; intros x y [<-|[<-|[]]] [<-|[<-|[]]]; reflexivity).
  assert (Z : std [std [0; 0]; std [1; 1]] == 0).
  { apply H; [discriminate|]. intros x y [<-|[<-|[]]] [<-|[<-|[]]]; rewrite ?Z0, ?Z1; reflexivity. }
  split; [exact Z|]. intros [_ K]. specialize (K (1 # 2)).
  assert (M : is_mean (1 # 2) (cells [[0; 0]; [1; 1]])) by (vm_compute; reflexivity).
  specialize (K M). unfold is_mean in K. rewrite Z in K. vm_compute in K. discriminate.
Qed.
Print Assumptions C36_std_refuted.

(** The difference of largest and smallest is taken of the differences. *)
Theorem C36_ptp_refuted :
  exists ps x lo hi, wrap m_ptp ps = Arr [x] /\ is_min lo (cells ps) /\ is_max hi (cells ps) /\ ~ x == hi - lo.
Proof.
  exists [[0; 1]; [5; 6]], 0, 0, 6. split; [reflexivity|]. split; [|split].
  - split; [exists 0; split; [left; auto|reflexivity]|]. intros y Hy. cbn in Hy.
    repeat (destruct Hy as [<-|Hy]; [lra|]). destruct Hy.
  - split; [exists 6; split; [do 3 right; left; auto|reflexivity]|]. intros y Hy. cbn in Hy.
    repeat (destruct Hy as [<-|Hy]; [lra|]). destruct Hy.
  - lra.
Qed.
Print Assumptions C36_ptp_refuted.

(** argmax is not the position of the largest cell in any numbering by patches: it is
    the number of the patch whose own argmax is largest. *)
Theorem C36_argmax_refuted :
  exists ps x, wrap m_argmax ps = Arr [x] /\ x == 0 /\
    (exists c, nth_error (cells ps) 0 = Some c /\ forall d, In d (cells ps) -> c <= d) /\
    (exists p c, nth_error ps 0 = Some p /\ is_max c (cells ps) /\ ~ exists y, In y p /\ y == c).
Proof.
  exists [[0; 1]; [9; 8]], 0. split; [reflexivity|]. split; [reflexivity|]. split.
  - exists 0. split; [reflexivity|]. intros d Hd. cbn in Hd. repeat (destruct Hd as [<-|Hd]; [lra|]). destruct Hd.
  - exists [0; 1], 9. split; [reflexivity|]. split.
    + split; [exists 9; split; [do 2 right; left; auto|reflexivity]|]. intros y Hy. cbn in Hy.
      repeat (destruct Hy as [<-|Hy]; [lra|]). destruct Hy.
    + intros (y & Hy & E). cbn in Hy. repeat (destruct Hy as [<-|Hy]; [lra|]). destruct Hy.
Qed.
Print Assumptions C36_argmax_refuted.

(** ** element by element *)
Theorem C36_elementwise : forall f p ps, length p <> 1%nat ->
  wrap (m_map f) (p :: ps) = Amr (map (map f) (p :: ps)).
Proof.
  intros f p ps H. unfold wrap.
  assert (E : forall l, all_some (map (m_map f) l) = Some (map (map f) l)).
  { induction l as [|q l IH]; [reflexivity|]. cbn [map all_some]. rewrite IH. reflexivity. }
  rewrite E. cbn [map]. rewrite map_length. replace (length p =? 1)%nat with false by lia. reflexivity.
Qed.
Print Assumptions C36_elementwise.

(** If the patches have one cell each the operation is applied twice: the negative of
    a field is the field, and not a field any more. *)
Theorem C36_one_cell_patches_refuted : forall ps, ps <> [] -> Forall (fun p => length p = 1%nat) ps ->
  exists a, wrap m_neg ps = Arr a /\ length a = length ps /\
    forall i x, nth_error (cells ps) i = Some x -> exists y, nth_error a i = Some y /\ y == x.
Proof.
  intros ps NE F. unfold wrap.
  assert (E : forall l, all_some (map m_neg l) = Some (map (map Qopp) l)).
  { induction l as [|q l IH]; [reflexivity|]. cbn [map all_some]. rewrite IH. reflexivity. }
  rewrite E. destruct ps as [|p ps]; [contradiction|]. cbn [map].
  inversion F as [|? ? Hp Fp]; subst. rewrite map_length, Hp, Nat.eqb_refl.
  assert (G : forallb (fun r : list Q => (length r =? 1)%nat) (map (map Qopp) ps) = true).
  { apply forallb_forall. intros r Hr. apply in_map_iff in Hr as (q & <- & Hq). rewrite map_length.
    rewrite Forall_forall in Fp. rewrite (Fp q Hq). reflexivity. }
  rewrite G. change (map Qopp p :: map (map Qopp) ps) with (map (map Qopp) (p :: ps)).
  eexists. split; [reflexivity|]. unfold cells. rewrite concat_map_map || rewrite <- concat_map.
  split.
  - rewrite !map_length. clear -F. induction F as [|q l H _ IH]; [reflexivity|]. cbn [concat length].
    rewrite app_length, H. cbn [length] in IH |- *. lia.
  - intros i x Hx. rewrite !nth_error_map, Hx. cbn. eexists. split; [reflexivity|]. ring.
Qed.
Print Assumptions C36_one_cell_patches_refuted.

(** Two fields, or a field and a field of one patch. *)
Theorem C36_operators : forall f p ps qs r,
  wrap2 f (p :: ps) qs = Amr r ->
  length r = S (length ps) /\
  forall i a, nth_error (p :: ps) i = Some a ->
    exists b, (nth_error qs i = Some b \/ length qs = 1%nat /\ nth_error qs 0 = Some b) /\
      nth_error r i = Some (map (fun ab => f (fst ab) (snd ab)) (combine a b)).
Proof.
  intros f p ps qs r. unfold wrap2. destruct (negb _ && negb _) eqn:C; [discriminate|].
  assert (HC : length qs = S (length ps) \/ length qs = 1%nat) by (cbn [length] in C; lia). clear C.
  remember (p :: ps) as ls eqn:El.
  set (rs := map _ _). destruct rs as [|r0 rs'] eqn:Er; [discriminate|]. rewrite <- Er.
  destruct (length r0 =? 1)%nat; [discriminate|]. intros [= <-]. unfold rs.
  assert (Lc : length (combine (seq 0 (length ls)) ls) = length ls) by (rewrite combine_length, seq_length; lia).
  split; [rewrite map_length, Lc; subst ls; reflexivity|].
  intros i a Ha. rewrite nth_error_map.
  assert (Hc : forall s j, nth_error ls j = Some a -> nth_error (combine (seq s (length ls)) ls) j = Some ((s + j)%nat, a)).
  { clear. induction ls as [|y ls IH]; intros s [|j] H; cbn in *; try discriminate.
    - injection H as ->. rewrite Nat.add_0_r. reflexivity.
    - rewrite (IH (S s) j H). f_equal. f_equal. lia. }
  rewrite (Hc 0%nat i Ha). cbn [option_map fst snd]. unfold binop.
  assert (Li : (i < S (length ps))%nat) by (replace (S (length ps)) with (length ls) by (subst; reflexivity); apply nth_error_Some; congruence).
  destruct qs as [|q qs]; [cbn in HC; lia|].
  destruct (nth_error (q :: qs) i) as [b|] eqn:Eb.
  - exists b. split; [left; reflexivity|]. unfold nth_patch. change (0 + i)%nat with i. rewrite Eb. reflexivity.
  - exists q. apply nth_error_None in Eb. split; [right; cbn [length] in *; split; [lia|reflexivity]|].
    unfold nth_patch. change (0 + i)%nat with i. rewrite (proj2 (nth_error_None _ _) Eb). reflexivity.
Qed.
Print Assumptions C36_operators.

(** ** examples *)
Example C36_ex : wrap m_sum [[1; 2]; [3; 4; 5]] = Arr [15] /\ wrap m_max [[1; 2]; [3; 4; 5]] = Arr [5] /\
  wrap m_any [[0; 0]; [0; 4]] = Arr [1] /\ wrap m_all [[0; 0]; [0; 4]] = Arr [0] /\
  wrap m_mean [[1; 3]; [4; 4]] = Arr [24 # 8] /\
  wrap2 Qplus [[1; 2]; [3; 4]] [[10; 20]] = Amr [[11; 22]; [13; 24]].
Proof. repeat split. Qed.
