(** C33: cell, node and extended coordinates are consistent. *)
From Verif Require Import CrdModel.
From Coq Require Import ZifyNat ZifyBool Lqa Qfield.

(** ** specification *)
(** strictly monotonic: increasing for positive [s], decreasing for negative [s] *)
Definition monotonic (s : Q) (x : list Q) : Prop :=
  forall i, (S i < length x)%nat -> 0 < s * (qat x (S i) - qat x i).
(** [v] is strictly between [a] and [b] in that direction *)
Definition between (s a v b : Q) : Prop := s * a < s * v /\ s * v < s * b.
Definition evenly (x : list Q) (a d : Q) : Prop := forall i, (i < length x)%nat -> qat x i == a + qn i * d.
(** same arrays *)
Definition same (x y : list Q) : Prop := length x = length y /\ forall i, (i < length x)%nat -> qat x i == qat y i.

(** ** helpers *)
Lemma qn_S i : qn (S i) == qn i + 1.
Proof. unfold qn. rewrite Nat2Z.inj_succ, <- Z.add_1_r, inject_Z_plus. reflexivity. Qed.
Lemma qn_add i j : qn (i + j) == qn i + qn j.
Proof. unfold qn. rewrite Nat2Z.inj_add, inject_Z_plus. reflexivity. Qed.
Lemma qn_sub i j : (j <= i)%nat -> qn (i - j) == qn i - qn j.
Proof. intros H. unfold qn. rewrite Nat2Z.inj_sub by exact H. unfold Z.sub. rewrite inject_Z_plus, inject_Z_opp. reflexivity. Qed.
Lemma qn_le i j : (i <= j)%nat -> qn i <= qn j.
Proof. intros H. unfold qn. rewrite <- Zle_Qle. lia. Qed.
Lemma qn_lt i j : (i < j)%nat -> qn i < qn j.
Proof. intros H. unfold qn. rewrite <- Zlt_Qlt. lia. Qed.
Lemma qn_1 : qn 1 == 1. Proof. reflexivity. Qed.
Lemma qn_0 : qn 0 == 0. Proof. reflexivity. Qed.
Lemma qn_nonneg i : 0 <= qn i.
Proof. apply (qn_le 0). lia. Qed.
Lemma qat_map (f : nat -> Q) n i : (i < n)%nat -> qat (map f (seq 0 n)) i = f i.
Proof. intros H. unfold qat. rewrite (nth_indep _ 0 (f O)) by (rewrite map_length, seq_length; exact H). rewrite map_nth, seq_nth by exact H. reflexivity. Qed.
Lemma qat_rev l i : (i < length l)%nat -> qat (rev l) i = qat l (length l - S i).
Proof. intros H. unfold qat. apply rev_nth. exact H. Qed.
Lemma qat_opp l i : (i < length l)%nat -> qat (map (fun v => - (1) * v) l) i = - (1) * qat l i.
Proof. intros H. unfold qat. rewrite (nth_indep _ 0 ((fun v => - (1) * v) 0)) by (rewrite map_length; exact H). apply (map_nth (fun v => - (1) * v)). Qed.
Lemma length_linspace a b n : length (linspace a b n) = n.
Proof. unfold linspace. rewrite map_length, seq_length. reflexivity. Qed.
Lemma qat_linspace a b n i : (2 <= n)%nat -> (i < n)%nat -> qat (linspace a b n) i == a + qn i * ((b - a) / (qn n - 1)).
Proof. intros Hn Hi. unfold linspace. rewrite qat_map by exact Hi. replace (n =? 1)%nat with false by lia. reflexivity. Qed.
Lemma qn_minus_1 n : (2 <= n)%nat -> 0 < qn n - 1.
Proof. intros H. pose proof (qn_lt 1 n ltac:(lia)) as K. rewrite qn_1 in K. lra. Qed.

Section S.
Variable (x : list Q).
Hypothesis (H2 : (2 <= length x)%nat).

Lemma length_cells : length (cells x) = (length x - 1)%nat.
Proof. unfold cells. replace (length x =? 1)%nat with false by lia. rewrite map_length, seq_length. reflexivity. Qed.
Lemma qat_cells i : (S i < length x)%nat -> qat (cells x) i == (qat x i + qat x (S i)) / 2.
Proof. intros Hi. unfold cells. replace (length x =? 1)%nat with false by lia. rewrite qat_map by lia. field. Qed.
End S.

(** ** cells *)
(** One centre fewer than nodes; each is the midpoint of its nodes and so between them. *)
Theorem C33_cells : forall x, (2 <= length x)%nat ->
  length (cells x) = (length x - 1)%nat /\
  (forall i, (S i < length x)%nat -> qat (cells x) i == (qat x i + qat x (S i)) / 2) /\
  (forall s, monotonic s x -> monotonic s (cells x) /\
     forall i, (S i < length x)%nat -> between s (qat x i) (qat (cells x) i) (qat x (S i))).
Proof.
  intros x H2. split; [apply length_cells; exact H2|]. split; [apply qat_cells; exact H2|]. intros s Hm. split.
  - intros i Hi. rewrite length_cells in Hi by exact H2. rewrite !qat_cells by (assumption || lia).
    pose proof (Hm i ltac:(lia)). pose proof (Hm (S i) ltac:(lia)).
    assert (E : s * ((qat x (S i) + qat x (S (S i))) / 2 - (qat x i + qat x (S i)) / 2) == (s * (qat x (S i) - qat x i) + s * (qat x (S (S i)) - qat x (S i))) / 2) by field.
    rewrite E. apply Qlt_shift_div_l; lra.
  - intros i Hi. specialize (Hm i Hi). unfold between. rewrite (qat_cells x H2 i Hi).
    assert (E1 : s * ((qat x i + qat x (S i)) / 2) == s * qat x i + (s * (qat x (S i) - qat x i)) / 2) by field.
    assert (E2 : s * qat x (S i) == s * qat x i + s * (qat x (S i) - qat x i)) by ring.
    rewrite E1, E2. set (d := s * (qat x (S i) - qat x i)) in *. assert (E3 : d / 2 == (1 # 2) * d) by field. rewrite E3. split; lra.
Qed.
Print Assumptions C33_cells.

(** Reflecting an axis negates and reverses nodes and centres alike, keeps them increasing,
    and twice is the identity. *)
Theorem C33_reflect : forall x, (2 <= length x)%nat ->
  same (snd (axis_arrays true x None)) (reflect_axis_arr (cells x)) /\
  (forall s, monotonic s x -> monotonic s (fst (axis_arrays true x None))) /\
  same (reflect_axis_arr (reflect_axis_arr x)) x.
Proof.
  intros x H2.
  assert (Lr : forall l, length (reflect_axis_arr l) = length l) by (intros; unfold reflect_axis_arr; rewrite map_length, rev_length; reflexivity).
  assert (Ar : forall l i, (i < length l)%nat -> qat (reflect_axis_arr l) i == - qat l (length l - S i)).
  { intros l i Hi. unfold reflect_axis_arr. rewrite qat_opp by (rewrite rev_length; exact Hi). rewrite qat_rev by exact Hi. ring. }
  cbn [axis_arrays snd fst]. split; [|split].
  - split; [rewrite Lr, !length_cells by (rewrite ?Lr; exact H2); rewrite Lr; reflexivity|]. intros i Hi. rewrite length_cells in Hi by (rewrite Lr; exact H2). rewrite Lr in Hi.
    rewrite qat_cells by (rewrite Lr; lia). rewrite !Ar by (rewrite ?length_cells by exact H2; lia). rewrite length_cells by exact H2.
    rewrite qat_cells by lia. replace (length x - 1 - S i)%nat with (length x - S (S i))%nat by lia.
    replace (S (length x - S (S i)))%nat with (length x - S i)%nat by lia. field.
  - intros s Hm i Hi. rewrite Lr in Hi. rewrite !Ar by lia. specialize (Hm (length x - S (S i))%nat ltac:(lia)).
    replace (S (length x - S (S i)))%nat with (length x - S i)%nat in Hm by lia.
    assert (E : s * (- qat x (length x - S (S i)) - - qat x (length x - S i)) == s * (qat x (length x - S i) - qat x (length x - S (S i)))) by ring. rewrite E. exact Hm.
  - split; [rewrite !Lr; reflexivity|]. intros i Hi. rewrite !Lr in Hi. rewrite !Ar by (rewrite ?Lr; lia). rewrite Lr. replace (length x - S (length x - S i))%nat with i by lia. ring.
Qed.
Print Assumptions C33_reflect.
(** Refuted when centres were given explicitly: they are not reflected with the nodes. *)
Theorem C33_reflect_given_centres_refuted : exists nc cc, same cc (cells nc) /\
  ~ same (snd (axis_arrays true nc (Some cc))) (cells (fst (axis_arrays true nc (Some cc)))).
Proof.
  exists [0; 1; 3], [1 # 2; 2]. split; [split; [reflexivity|]; intros [|[|i]] Hi; cbn in *; try lia; reflexivity|].
  intros [_ H]. specialize (H O ltac:(cbn; lia)). vm_compute in H. discriminate.
Qed.
Print Assumptions C33_reflect_given_centres_refuted.

(** ** extending arrays *)
Lemma extend_parts x nl nh cf dw y : (2 <= length x)%nat -> extend_arr x nl nh cf dw x = Some y ->
  length y = (nl + length x + nh)%nat /\
  (forall k, (k < nl)%nat -> qat y k == qat x 0 - (qn nl - qn k) * (cf * (qat x 1 - qat x 0))) /\
  (forall i, (i < length x)%nat -> qat y (nl + i) = qat x i) /\
  (forall i, (i < nh)%nat -> qat y (nl + length x + i) ==
     qat x (length x - 1) + (qn i + 1) * (cf * (qat x (length x - 1) - qat x (length x - 2)))).
Proof.
  intros H2 H. unfold extend_arr in H. replace (1 <? length x)%nat with true in H by lia. replace (length x <? 2)%nat with false in H by lia.
  replace (length x =? 0)%nat with false in H by lia. cbn [andb] in H. injection H as <-.
  set (lo := map _ (seq 0 nl)). set (hi := map _ (seq 0 nh)).
  assert (Ll : length lo = nl) by (subst lo; rewrite map_length, seq_length; reflexivity).
  assert (Lh : length hi = nh) by (subst hi; rewrite map_length, seq_length; reflexivity).
  split; [rewrite !app_length, rev_length; lia|]. unfold qat at 1 4 5 6 7 8. split; [|split].
  - intros k Hk. rewrite app_nth1 by (rewrite rev_length; lia). change (nth k (rev lo) 0) with (qat (rev lo) k). rewrite qat_rev by lia.
    rewrite Ll. subst lo. rewrite qat_map by lia. rewrite qn_sub, qn_S by lia. unfold qat. ring.
  - intros i Hi. rewrite app_nth2 by (rewrite rev_length; lia). rewrite rev_length, Ll. replace (nl + i - nl)%nat with i by lia. rewrite app_nth1 by exact Hi. reflexivity.
  - intros i Hi. rewrite app_nth2 by (rewrite rev_length; lia). rewrite app_nth2 by (rewrite rev_length; lia). rewrite rev_length, Ll.
    replace (nl + length x + i - nl - length x)%nat with i by lia. change (nth i hi 0) with (qat hi i). subst hi. rewrite qat_map by exact Hi. reflexivity.
Qed.

(** The interior is kept and the spacing at each end is continued. *)
Theorem C33_extend : forall x nl nh dw, (2 <= length x)%nat ->
  exists y, extend_arr x nl nh 1 dw x = Some y /\
  length y = (nl + length x + nh)%nat /\
  (forall i, (i < length x)%nat -> qat y (nl + i) = qat x i) /\
  (forall k, (k < nl)%nat -> qat y (S k) - qat y k == qat x 1 - qat x 0) /\
  (forall k, (nl + length x - 1 <= k)%nat -> (S k < length y)%nat -> qat y (S k) - qat y k == qat x (length x - 1) - qat x (length x - 2)) /\
  (forall s, monotonic s x -> monotonic s y) /\
  (forall a d, evenly x a d -> evenly y (a - qn nl * d) d).
Proof.
  intros x nl nh dw H2.
  destruct (extend_arr x nl nh 1 dw x) as [y|] eqn:E.
  2:{ unfold extend_arr in E. replace (1 <? length x)%nat with true in E by lia. replace (length x <? 2)%nat with false in E by lia.
      replace (length x =? 0)%nat with false in E by lia. discriminate. }
  exists y. split; [reflexivity|]. destruct (extend_parts x nl nh 1 dw y H2 E) as (Ly & Lo & Mid & Hi).
  assert (D1 : forall k, (k < nl)%nat -> qat y (S k) - qat y k == qat x 1 - qat x 0).
  { intros k Hk. rewrite (Lo k Hk). destruct (Nat.eq_dec (S k) nl) as [En|En].
    - replace (S k) with (nl + 0)%nat by lia. rewrite Mid by lia. rewrite <- En. rewrite qn_S. ring.
    - rewrite (Lo (S k)) by lia. rewrite qn_S. ring. }
  assert (D2 : forall k, (nl + length x - 1 <= k)%nat -> (S k < length y)%nat -> qat y (S k) - qat y k == qat x (length x - 1) - qat x (length x - 2)).
  { intros k Hk Hl. replace (S k) with (nl + length x + (S k - nl - length x))%nat by lia. rewrite Hi by lia.
    destruct (Nat.eq_dec k (nl + length x - 1)) as [En|En].
    - rewrite En. replace (nl + length x - 1)%nat with (nl + (length x - 1))%nat by lia. rewrite Mid by lia.
      replace (S (nl + (length x - 1)) - nl - length x)%nat with 0%nat by lia. rewrite qn_0. ring.
    - replace k with (nl + length x + (k - nl - length x))%nat at 2 by lia. rewrite Hi by lia. replace (S k - nl - length x)%nat with (S (k - nl - length x)) by lia. rewrite qn_S. ring. }
  split; [exact Ly|]. split; [exact Mid|]. split; [exact D1|]. split; [exact D2|]. split.
  - intros s Hm k Hk. destruct (Nat.lt_ge_cases k nl) as [C|C]; [rewrite (D1 k C); apply (Hm O); lia|].
    destruct (Nat.lt_ge_cases k (nl + length x - 1)) as [C'|C'].
    + replace (S k) with (nl + S (k - nl))%nat by lia. replace k with (nl + (k - nl))%nat at 2 by lia. rewrite !Mid by lia. apply Hm. lia.
    + rewrite (D2 k C' Hk). specialize (Hm (length x - 2)%nat ltac:(lia)). replace (S (length x - 2))%nat with (length x - 1)%nat in Hm by lia. exact Hm.
  - intros a d He. unfold evenly in *. intros k Hk. destruct (Nat.lt_ge_cases k nl) as [C|C].
    + rewrite (Lo k C). rewrite !He by lia. rewrite qn_1, qn_0. ring.
    + destruct (Nat.lt_ge_cases k (nl + length x)) as [C'|C'].
      * replace k with (nl + (k - nl))%nat at 1 by lia. rewrite Mid by lia. rewrite He by lia. rewrite qn_sub by lia. ring.
      * replace k with (nl + length x + (k - nl - length x))%nat at 1 by lia. rewrite Hi by lia. rewrite !He by lia.
        rewrite !qn_sub by lia. rewrite qn_1. change (qn 2) with (1 + 1). ring.
Qed.
Print Assumptions C33_extend.

(** Extending the arguments of np.linspace gives the same array as extending the array. *)
Theorem C33_extend_linspace : forall xl xh nx nl nh dw y,
  (2 <= nx)%nat -> extend_arr (linspace xl xh nx) nl nh 1 dw (linspace xl xh nx) = Some y ->
  let '(xl', xh', nx') := extend_lin xl xh nx nl nh dw in same (linspace xl' xh' nx') y.
Proof.
  intros xl xh nx nl nh dw y H2 H. unfold extend_lin. replace (1 <? nx)%nat with true by lia. cbv beta iota zeta.
  destruct (C33_extend (linspace xl xh nx) nl nh dw) as (y' & E & Ly & _ & _ & _ & _ & Ev); [rewrite length_linspace; exact H2|].
  rewrite H in E. injection E as <-. rewrite length_linspace in Ly.
  pose proof (Ev xl ((xh - xl) / (qn nx - 1))) as K.
  assert (He : evenly (linspace xl xh nx) xl ((xh - xl) / (qn nx - 1))).
  { intros i Hi. rewrite length_linspace in Hi. apply qat_linspace; assumption. }
  specialize (K He). unfold evenly in K. split; [rewrite length_linspace, Ly; lia|]. intros i Hi. rewrite length_linspace in Hi. rewrite qat_linspace by lia. rewrite K by lia.
  pose proof (qn_minus_1 nx H2) as Hp. rewrite !qn_add. pose proof (qn_nonneg nl). pose proof (qn_nonneg nh). field. split; lra.
Qed.
Print Assumptions C33_extend_linspace.

(** ** node centred to cell centred *)
(** At least three nodes: one node more, every old point is inside its new cell; if the
    points are evenly spaced they are the new centres. *)
Theorem C33_nc2cc : forall x dw, (3 <= length x)%nat ->
  exists y, nc2cc dw x (cells x) = Some y /\ length y = S (length x) /\ length (cells y) = length x /\
  (forall s, monotonic s x -> forall i, (i < length x)%nat -> between s (qat y i) (qat x i) (qat y (S i))) /\
  (forall a d, evenly x a d -> same (cells y) x).
Proof.
  intros x dw H3. unfold nc2cc, extend_arr. rewrite length_cells by lia. replace (1 <? length x - 1)%nat with true by lia.
  replace (length x <? 2)%nat with false by lia. replace (length x - 1 =? 0)%nat with false by lia. cbn [andb].
  eexists. split; [reflexivity|]. cbn [seq map rev app].
  set (y := _ :: _).
  assert (Ly : length y = S (length x)) by (subst y; cbn [length]; rewrite app_length, length_cells by lia; cbn [length]; lia).
  split; [exact Ly|]. split; [rewrite length_cells by lia; lia|].
  assert (Y0 : qat y 0 == qat x 0 - (qat x 1 - qat x 0) / 2).
  { subst y. unfold qat at 1. cbn [nth]. rewrite qat_cells by lia. rewrite qn_0. field. }
  assert (Ym : forall i, (S i < length x)%nat -> qat y (S i) == (qat x i + qat x (S i)) / 2).
  { intros i Hi. subst y. unfold qat at 1. cbn [nth]. rewrite app_nth1 by (rewrite length_cells by lia; lia). change (nth i (cells x) 0) with (qat (cells x) i). apply qat_cells; lia. }
  assert (Yl : qat y (length x) == qat x (length x - 1) + (qat x (length x - 1) - qat x (length x - 2)) / 2).
  { subst y. unfold qat at 1. replace (length x) with (S (length (cells x))) at 1 by (rewrite length_cells by lia; lia). cbn [nth]. rewrite app_nth2, Nat.sub_diag by lia. cbn [nth].
    replace (length x - 1 - 1)%nat with (length x - 2)%nat by lia. rewrite qat_cells by lia. replace (S (length x - 2))%nat with (length x - 1)%nat by lia. rewrite qn_0. field. }
  clearbody y. split.
  - intros s Hm i Hi. unfold between.
    assert (Lo : s * qat y i < s * qat x i).
    { destruct i as [|i].
      - rewrite Y0. specialize (Hm O ltac:(lia)). assert (E : s * (qat x 0 - (qat x 1 - qat x 0) / 2) == s * qat x 0 - (s * (qat x 1 - qat x 0)) * (1 # 2)) by field. rewrite E. lra.
      - rewrite (Ym i Hi). specialize (Hm i Hi). assert (E : s * ((qat x i + qat x (S i)) / 2) == s * qat x (S i) - (s * (qat x (S i) - qat x i)) * (1 # 2)) by field. rewrite E. lra. }
    assert (Up : s * qat x i < s * qat y (S i)).
    { destruct (Nat.eq_dec (S i) (length x)) as [E|E].
      - rewrite E, Yl. specialize (Hm (length x - 2)%nat ltac:(lia)). replace (S (length x - 2))%nat with (length x - 1)%nat in Hm by lia. replace (length x - 1)%nat with i in * by lia.
        assert (F : s * (qat x i + (qat x i - qat x (length x - 2)) / 2) == s * qat x i + (s * (qat x i - qat x (length x - 2))) * (1 # 2)) by field. rewrite F. lra.
      - rewrite (Ym i ltac:(lia)). specialize (Hm i ltac:(lia)). assert (F : s * ((qat x i + qat x (S i)) / 2) == s * qat x i + (s * (qat x (S i) - qat x i)) * (1 # 2)) by field. rewrite F. lra. }
    split; assumption.
  - intros a d He. unfold evenly in He. split; [rewrite length_cells by lia; lia|]. intros i Hi. rewrite length_cells in Hi by lia. rewrite qat_cells by lia.
    assert (Hy : forall k, (k <= length x)%nat -> qat y k == a + (qn k - (1 # 2)) * d).
    { intros [|k] Hk; [rewrite Y0, !He by lia; rewrite qn_0, qn_1; field|]. destruct (Nat.eq_dec (S k) (length x)) as [E|E].
      - rewrite E, Yl, !He by lia. rewrite !qn_sub by lia. rewrite qn_1. change (qn 2) with (1 + 1). field.
      - rewrite Ym, !He by lia. rewrite qn_S. field. }
    rewrite !Hy by lia. rewrite He by lia. rewrite qn_S. field.
Qed.
Print Assumptions C33_nc2cc.
(** Refuted for two nodes: the new cells are 1e-5 wide around the middle and hold neither
    node. *)
Theorem C33_nc2cc_two_nodes_refuted : exists y, nc2cc (1 # 100000) [0; 10] (cells [0; 10]) = Some y /\
  same y [5 - (1 # 100000); 5; 5 + (1 # 100000)].
Proof. eexists. split; [reflexivity|]. split; [reflexivity|]. intros [|[|[|i]]] Hi; cbn in Hi; try lia; vm_compute; reflexivity. Qed.
Print Assumptions C33_nc2cc_two_nodes_refuted.
(** Refuted for one node: there are two cells for one value. *)
Theorem C33_nc2cc_one_node_refuted : forall v dw, exists y, nc2cc dw [v] (cells [v]) = Some y /\ length (cells y) = 2%nat.
Proof. intros v dw. eexists. split; reflexivity. Qed.
Print Assumptions C33_nc2cc_one_node_refuted.

(** ** uniform coordinates *)
Definition lastq (x : list Q) : Q := qat x (length x - 1).

(** Node extents are those of the array. *)
Theorem C33_uniform_nodes : forall a, (2 <= a_n a)%nat ->
  length (uni_nodes a) = a_n a /\ qat (uni_nodes a) 0 == a_xl a /\ lastq (uni_nodes a) == a_xh a /\
  a_L a == lastq (uni_nodes a) - qat (uni_nodes a) 0 /\
  evenly (uni_nodes a) (a_xl a) ((a_xh a - a_xl a) / (qn (a_n a) - 1)) /\
  length (cells (uni_nodes a)) = a_n (cc_args a).
Proof.
  intros [xl xh n] H. cbn [a_n a_xl a_xh] in *. unfold uni_nodes, a_L, lastq, cc_args. cbn [a_n a_xl a_xh]. rewrite length_linspace.
  pose proof (qn_minus_1 n H). split; [reflexivity|].
  assert (E0 : qat (linspace xl xh n) 0 == xl) by (rewrite qat_linspace by lia; rewrite qn_0; field; lra).
  assert (E1 : qat (linspace xl xh n) (n - 1) == xh) by (rewrite qat_linspace by lia; rewrite qn_sub, qn_1 by lia; field; lra).
  split; [exact E0|]. split; [exact E1|]. split; [rewrite E0, E1; reflexivity|]. split.
  - intros i Hi. rewrite length_linspace in Hi. apply qat_linspace; assumption.
  - rewrite length_cells by (rewrite length_linspace; exact H). rewrite length_linspace. lia.
Qed.
Print Assumptions C33_uniform_nodes.
(** One node: also the first and last agree if both limits are equal. *)
Theorem C33_uniform_one_node : forall x, uni_nodes (ARGS x x 1) = [x].
Proof. reflexivity. Qed.

(** Refuted for the cell extents and the smallest spacing: they agree with the arrays only
    if the axis has no length. *)
Theorem C33_uniform_cell_extents_refuted : forall a, (2 <= a_n a)%nat ->
  (a_xl (cc_args a) == qat (cells (uni_nodes a)) 0 <-> a_xl a == a_xh a) /\
  (a_xh (cc_args a) == lastq (cells (uni_nodes a)) <-> a_xl a == a_xh a) /\
  (min_dx_nc a == qat (uni_nodes a) 1 - qat (uni_nodes a) 0 <-> a_xl a == a_xh a).
Proof.
  intros [xl xh n] H. cbn [a_n] in H. pose proof (qn_minus_1 n H) as Hp. unfold cc_args, uni_nodes, min_dx_nc, a_L, lastq. cbn [a_n a_xl a_xh].
  replace (Nat.max n 1) with n by lia. rewrite length_cells by (rewrite length_linspace; exact H). rewrite length_linspace.
  rewrite !qat_cells by (rewrite ?length_linspace; lia). replace (S (n - 1 - 1))%nat with (n - 1)%nat by lia. replace (n - 1 - 1)%nat with (n - 2)%nat by lia.
  rewrite !qat_linspace by lia. rewrite !qn_sub by lia. rewrite qn_0, qn_1. change (qn 2) with (1 + 1). set (N := qn n) in *. clearbody N.
  assert (Key : (xh - xl) / N == (xh - xl) / (N - 1) <-> xl == xh).
  { split; intros E.
    - assert (F : (xh - xl) / N * (N * (N - 1)) == (xh - xl) / (N - 1) * (N * (N - 1))) by (rewrite E; reflexivity).
      assert (F1 : (xh - xl) / N * (N * (N - 1)) == (xh - xl) * (N - 1)) by (field; lra).
      assert (F2 : (xh - xl) / (N - 1) * (N * (N - 1)) == (xh - xl) * N) by (field; lra). rewrite F1, F2 in F. lra.
    - assert (Z : xh - xl == 0) by lra. rewrite Z. unfold Qdiv. ring. }
  split; [|split]; rewrite <- Key.
  - assert (E1 : (xl + 0 * ((xh - xl) / (N - 1)) + (xl + 1 * ((xh - xl) / (N - 1)))) / 2 == xl + (1 # 2) * ((xh - xl) / (N - 1))) by (field; lra).
    assert (E2 : xl + (1 # 2) * (xh - xl) / N == xl + (1 # 2) * ((xh - xl) / N)) by (field; lra). rewrite E1, E2.
    set (p := (xh - xl) / N). set (q := (xh - xl) / (N - 1)). clearbody p q. split; intros; lra.
  - assert (E1 : (xl + (N - (1 + 1)) * ((xh - xl) / (N - 1)) + (xl + (N - 1) * ((xh - xl) / (N - 1)))) / 2 == xh - (1 # 2) * ((xh - xl) / (N - 1))) by (field; lra).
    assert (E2 : xh - (1 # 2) * (xh - xl) / N == xh - (1 # 2) * ((xh - xl) / N)) by (field; lra). rewrite E1, E2.
    set (p := (xh - xl) / N). set (q := (xh - xl) / (N - 1)). clearbody p q. split; intros; lra.
  - assert (E1 : xl + 1 * ((xh - xl) / (N - 1)) - (xl + 0 * ((xh - xl) / (N - 1))) == (xh - xl) / (N - 1)) by ring. rewrite E1. reflexivity.
Qed.
Print Assumptions C33_uniform_cell_extents_refuted.
(** Refuted for one node: there is one centre but the shape of the cells is 0. *)
Theorem C33_uniform_one_cell_refuted : forall x y, length (cells (uni_nodes (ARGS x y 1))) = 1%nat /\ a_n (cc_args (ARGS x y 1)) = 0%nat.
Proof. intros. split; reflexivity. Qed.
Print Assumptions C33_uniform_one_cell_refuted.

(** Uniform coordinates, node centred to cell centred: one node more, and every old point is
    inside its new cell; *)
Theorem C33_uniform_nc2cc : forall a dw s, (2 <= a_n a)%nat -> 0 < s * (a_xh a - a_xl a) ->
  length (uni_nodes (uni_nc2cc dw a)) = S (a_n a) /\
  forall i, (i < a_n a)%nat -> between s (qat (uni_nodes (uni_nc2cc dw a)) i) (qat (uni_nodes a) i) (qat (uni_nodes (uni_nc2cc dw a)) (S i)).
Proof.
  intros [xl xh n] dw s H Hs. cbn [a_n a_xl a_xh] in *. unfold uni_nc2cc, uni_nodes. cbn [a_n a_xl a_xh].
  pose proof (qn_minus_1 n H) as Hp.
  assert (Hd : ~ (xh - xl) / qn n == 0).
  { intros E. assert (F : (xh - xl) / qn n * qn n == 0) by (rewrite E; ring). assert (F' : (xh - xl) / qn n * qn n == xh - xl) by (field; lra). rewrite F' in F. rewrite F in Hs. lra. }
  destruct (Qeq_bool ((xh - xl) / qn n) 0) eqn:Eb; [apply Qeq_bool_iff in Eb; contradiction|]. cbn [a_n a_xl a_xh].
  split; [rewrite length_linspace; lia|]. intros i Hi. unfold between. rewrite !qat_linspace by lia. rewrite qn_add, (qn_S i), qn_1.
  pose proof (qn_nonneg i) as Hi0. assert (Hin : qn i <= qn n - 1) by (pose proof (qn_le i (n - 1) ltac:(lia)) as K; rewrite qn_sub, qn_1 in K by lia; exact K).
  set (N := qn n) in *. set (I := qn i) in *. clearbody N I.
  set (L := s * (xh - xl)) in *.
  assert (E1 : s * (xl - (1 # 2) * ((xh - xl) / N) + I * ((xh + (1 # 2) * ((xh - xl) / N) - (xl - (1 # 2) * ((xh - xl) / N))) / (N + 1 - 1))) ==
               s * xl + L * ((I * (N + 1) / N - (1 # 2)) / N)) by (subst L; field; lra).
  assert (E2 : s * (xl + I * ((xh - xl) / (N - 1))) == s * xl + L * (I / (N - 1))) by (subst L; field; lra).
  assert (E3 : s * (xl - (1 # 2) * ((xh - xl) / N) + (I + 1) * ((xh + (1 # 2) * ((xh - xl) / N) - (xl - (1 # 2) * ((xh - xl) / N))) / (N + 1 - 1))) ==
               s * xl + L * (((I + 1) * (N + 1) / N - (1 # 2)) / N)) by (subst L; field; lra).
  rewrite E1, E2, E3. clearbody L. assert (N2 : 0 < N * N * (N - 1)) by (apply Qmult_lt_0_compat; [apply Qmult_lt_0_compat|]; lra).
  assert (A : (I * (N + 1) / N - (1 # 2)) / N < I / (N - 1)).
  { apply (Qmult_lt_r _ _ (N * N * (N - 1)) N2). assert (F1 : (I * (N + 1) / N - (1 # 2)) / N * (N * N * (N - 1)) == I * (N * N - 1) - (1 # 2) * N * (N - 1)) by (field; lra).
    assert (F2 : I / (N - 1) * (N * N * (N - 1)) == I * (N * N)) by (field; lra). rewrite F1, F2. nra. }
  assert (B : I / (N - 1) < ((I + 1) * (N + 1) / N - (1 # 2)) / N).
  { apply (Qmult_lt_r _ _ (N * N * (N - 1)) N2). assert (F1 : ((I + 1) * (N + 1) / N - (1 # 2)) / N * (N * N * (N - 1)) == (I + 1) * (N * N - 1) - (1 # 2) * N * (N - 1)) by (field; lra).
    assert (F2 : I / (N - 1) * (N * N * (N - 1)) == I * (N * N)) by (field; lra). rewrite F1, F2. nra. }
  set (p := (I * (N + 1) / N - (1 # 2)) / N) in *. set (q := I / (N - 1)) in *. set (r := ((I + 1) * (N + 1) / N - (1 # 2)) / N) in *. clearbody p q r.
  split; apply Qplus_lt_r; apply Qmult_lt_l; assumption.
Qed.
Print Assumptions C33_uniform_nc2cc.
(** ... but it is not the centre of that cell (refuted), unlike for the same points given as
    an array (C33_nc2cc). *)
Theorem C33_uniform_nc2cc_centres_refuted : exists a dw,
  ~ same (cells (uni_nodes (uni_nc2cc dw a))) (uni_nodes a) /\
  exists y, nc2cc dw (uni_nodes a) (cells (uni_nodes a)) = Some y /\ same (cells y) (uni_nodes a).
Proof.
  exists (ARGS 0 3 4), (1 # 100000). split.
  - intros [_ H]. specialize (H O ltac:(vm_compute; lia)). vm_compute in H. discriminate.
  - destruct (C33_nc2cc (uni_nodes (ARGS 0 3 4)) (1 # 100000)) as (y & E & _ & _ & _ & Ev); [cbn; lia|]. exists y. split; [exact E|].
    apply (Ev 0 1). unfold evenly, uni_nodes. intros i Hi. rewrite length_linspace in Hi. rewrite qat_linspace by (cbn in *; lia). cbn [a_n a_xl a_xh]. change (qn 4) with 4. field.
Qed.
Print Assumptions C33_uniform_nc2cc_centres_refuted.

(** Reflected uniform coordinates: the coordinate list describes the reflected array ... *)
Theorem C33_uniform_reflect : forall a, (2 <= a_n a)%nat ->
  same (uni_nodes (uni_clist true a)) (fst (axis_arrays true (uni_nodes a) None)).
Proof.
  intros [xl xh n] H. cbn [a_n] in H. unfold uni_nodes, uni_clist, axis_arrays, reflect_axis_arr. cbn [fst a_n a_xl a_xh].
  pose proof (qn_minus_1 n H). split; [rewrite map_length, rev_length, !length_linspace; reflexivity|]. intros i Hi. rewrite length_linspace in Hi.
  rewrite qat_opp by (rewrite rev_length, length_linspace; exact Hi). rewrite qat_rev by (rewrite length_linspace; exact Hi). rewrite length_linspace.
  rewrite !qat_linspace by lia. rewrite qn_sub, qn_S by lia. field. lra.
Qed.
Print Assumptions C33_uniform_reflect.
(** ... but the reported lower end is that of the axis before reflection (refuted). *)
Theorem C33_uniform_reflect_extent_refuted : exists a, ~ a_xl a == qat (fst (axis_arrays true (uni_nodes a) None)) 0.
Proof. exists (ARGS 1 3 3). intros H. vm_compute in H. discriminate. Qed.
Print Assumptions C33_uniform_reflect_extent_refuted.

(** ** uniform coordinates from a full array *)
Lemma diff_at x i : (S i < length x)%nat -> qat (np_diff x) i = qat x (S i) - qat x i.
Proof. intros H. unfold np_diff. apply qat_map. lia. Qed.
Lemma drift x d e : (forall i, (S i < length x)%nat -> Qabs (d - (qat x (S i) - qat x i)) <= e) ->
  forall i, (i < length x)%nat -> Qabs (qat x i - (qat x 0 + qn i * d)) <= qn i * e.
Proof.
  intros H. induction i as [|i IH]; intros Hi.
  - assert (E : qat x 0 - (qat x 0 + qn 0 * d) == 0) by (rewrite qn_0; ring). rewrite E. rewrite qn_0. cbn [Qabs]. apply Qle_lteq. right. cbn. ring.
  - specialize (IH ltac:(lia)). specialize (H i Hi). assert (E : qat x (S i) - (qat x 0 + qn (S i) * d) == (qat x i - (qat x 0 + qn i * d)) + - (d - (qat x (S i) - qat x i))) by (rewrite qn_S; ring).
    rewrite E. pose proof (Qabs_triangle (qat x i - (qat x 0 + qn i * d)) (- (d - (qat x (S i) - qat x i)))) as T. rewrite Qabs_opp in T.
    assert (F : qn (S i) * e == qn i * e + e) by (rewrite qn_S; ring). rewrite F. lra.
Qed.
(** An array accepted as uniform is replaced by evenly spaced values that are off by at most
    twice the number of steps times the largest difference of spacings. *)
Theorem C33_uniform_of_array : forall x a, (2 <= length x)%nat -> uniform_of_array x = Some a ->
  length (uni_nodes a) = length x /\
  (forall i, (S i < length x)%nat -> Qabs (qat x 1 - qat x 0 - (qat x (S i) - qat x i)) <= atol + rtol * Qabs (qat x (S i) - qat x i)) /\
  forall e, (forall i, (S i < length x)%nat -> Qabs (qat x 1 - qat x 0 - (qat x (S i) - qat x i)) <= e) ->
    forall i, (i < length x)%nat -> Qabs (qat (uni_nodes a) i - qat x i) <= 2 * qn i * e.
Proof.
  intros x a H2 H. unfold uniform_of_array in H. destruct (allclose _ _) eqn:Ea; [|discriminate]. injection H as <-.
  unfold uni_nodes. cbn [a_n a_xl a_xh]. split; [apply length_linspace|]. split.
  - intros i Hi. unfold allclose in Ea. rewrite forallb_forall in Ea. specialize (Ea (qat (np_diff x) i)).
    assert (Hin : In (qat (np_diff x) i) (np_diff x)) by (apply nth_In; unfold np_diff; rewrite map_length, seq_length; lia).
    specialize (Ea Hin). apply Qle_bool_iff in Ea. rewrite !diff_at in Ea by lia. exact Ea.
  - intros e He i Hi. pose proof (drift x (qat x 1 - qat x 0) e He) as D. pose proof (D i Hi) as D1. pose proof (D (length x - 1)%nat ltac:(lia)) as D2.
    rewrite qat_linspace by lia. pose proof (qn_minus_1 (length x) H2) as Hp. rewrite qn_sub, qn_1 in D2 by lia.
    pose proof (qn_nonneg i) as Hi0. set (d := qat x 1 - qat x 0) in *. set (N := qn (length x)) in *. set (I := qn i) in *. set (xh := qat x (length x - 1)) in *.
    assert (E : qat x 0 + I * ((xh - qat x 0) / (N - 1)) - qat x i == I / (N - 1) * (xh - (qat x 0 + (N - 1) * d)) + - (qat x i - (qat x 0 + I * d))) by (field; lra).
    rewrite E. eapply Qle_trans; [apply Qabs_triangle|]. rewrite Qabs_opp, Qabs_Qmult.
    assert (Hq : 0 <= I / (N - 1)) by (apply Qle_shift_div_l; lra). rewrite (Qabs_pos _ Hq).
    assert (M : I / (N - 1) * Qabs (xh - (qat x 0 + (N - 1) * d)) <= I / (N - 1) * ((N - 1) * e)).
    { rewrite !(Qmult_comm (I / (N - 1))). apply Qmult_le_compat_r; assumption. }
    assert (M2 : I / (N - 1) * ((N - 1) * e) == I * e) by (field; lra). rewrite M2 in M. assert (F : 2 * I * e == I * e + I * e) by ring. rewrite F.
    set (u := I / (N - 1) * Qabs (xh - (qat x 0 + (N - 1) * d))) in *. set (w := I * e) in *. clearbody u w. lra.
Qed.
Print Assumptions C33_uniform_of_array.
(** Refuted for small numbers: spacings below 1e-8 always count as equal. *)
Theorem C33_uniform_of_small_array_refuted : forall p q : Q, 0 < p -> p <= atol / 2 -> 0 < q -> q <= atol / 2 ->
  exists a, uniform_of_array [0; p; p + q] = Some a /\ qat (uni_nodes a) 1 == (p + q) / 2.
Proof.
  intros p q Hp Hp' Hq Hq'.
  assert (Ha : atol / 2 == 1 # 200000000) by reflexivity. rewrite Ha in Hp', Hq'.
  assert (Small : forall u v, 0 < u -> u <= 1 # 200000000 -> 0 < v -> v <= 1 # 200000000 -> Qabs (u - v) <= atol + rtol * Qabs v).
  { intros u v Hu Hu' Hv Hv'. rewrite (Qabs_pos v) by lra. assert (0 <= rtol * v) by (apply Qmult_le_0_compat; [vm_compute; discriminate|lra]).
    unfold atol. apply Qabs_Qle_condition. split; lra. }
  assert (E : uniform_of_array [0; p; p + q] = Some (ARGS 0 (p + q) 3)).
  { unfold uniform_of_array. cbn [length]. replace (allclose _ _) with true; [reflexivity|]. symmetry. unfold allclose. apply forallb_forall.
    intros d Hd. apply Qle_bool_iff. unfold np_diff in *. cbn [length Nat.sub seq map] in *. unfold qat in *. cbn [nth] in *. destruct Hd as [<-|[<-|[]]].
    - pose proof (Small p p Hp Hp' Hp Hp') as K. assert (F : p - 0 == p) by ring. rewrite F. exact K.
    - pose proof (Small p q Hp Hp' Hq Hq') as K. assert (F : p - 0 == p) by ring. assert (G : p + q - p == q) by ring. rewrite F, G. exact K. }
  eexists. split; [exact E|]. unfold uni_nodes. cbn [a_n a_xl a_xh]. rewrite qat_linspace by lia. change (qn 1) with 1. change (qn 3) with 3. field.
Qed.
Print Assumptions C33_uniform_of_small_array_refuted.

(** ** non-trivial cases *)
Example C33_ex_mono : monotonic 1 [0; 1; 3; 4] /\ monotonic (-(1)) [4; 3; 1; 0] /\ (3 <= length [0; 1; 3; 4])%nat.
Proof. split; [|split]; [intros [|[|[|i]]] Hi; cbn in Hi; try lia; vm_compute; reflexivity..|cbn; lia]. Qed.
Example C33_ex_uniform : (2 <= a_n (ARGS 3 (-(1)) 5))%nat /\ 0 < - (1) * (a_xh (ARGS 3 (-(1)) 5) - a_xl (ARGS 3 (-(1)) 5)).
Proof. split; [cbn; lia|vm_compute; reflexivity]. Qed.
Example C33_ex_array : uniform_of_array [0; 2; 4; 6] = Some (ARGS 0 6 4).
Proof. reflexivity. Qed.
