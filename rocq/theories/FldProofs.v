(** Lemmas about the field model. *)
From Verif Require Import FldModel FwdSliceProofs FwdSliceNd.
From Coq Require Import ZifyBool ZifyNat Arith Permutation.
Open Scope Z_scope.

(** ** lists *)
Lemma leqb_eq a : forall b, leqb a b = true <-> a = b.
Proof.
  induction a as [|x a IH]; intros [|y b]; cbn [leqb]; split; intros H; try reflexivity; try discriminate.
  - apply andb_prop in H as [H1 H2]. apply Z.eqb_eq in H1. apply IH in H2. congruence.
  - injection H as -> ->. rewrite Z.eqb_refl. cbn. apply IH. reflexivity.
Qed.
Lemma leqb_refl a : leqb a a = true.
Proof. apply leqb_eq. reflexivity. Qed.
Lemma leqb_neq a b : a <> b -> leqb a b = false.
Proof. intros H. destruct (leqb a b) eqn:E; [apply leqb_eq in E; contradiction|reflexivity]. Qed.
Lemma leqb_len a b : length a <> length b -> leqb a b = false.
Proof. intros H. apply leqb_neq. congruence. Qed.
Lemma lay_eqb_eq a b : lay_eqb a b = true <-> a = b.
Proof. destruct a, b; cbn; split; intros H; try reflexivity; discriminate. Qed.
Lemma lay_eqb_refl a : lay_eqb a a = true.
Proof. destruct a; reflexivity. Qed.
Lemma removelast_snoc {X} (l : list X) x : removelast (l ++ [x]) = l.
Proof. apply removelast_last. Qed.
Lemma last_snoc {X} (l : list X) x d : last (l ++ [x]) d = x.
Proof. apply last_last. Qed.
Lemma insert_at_len {X} (l : list X) x : insert_at (length l) x l = l ++ [x].
Proof. induction l as [|y l IH]; [reflexivity|]. cbn. rewrite IH. reflexivity. Qed.
Lemma insert_at_len' {X} n (l : list X) x : length l = n -> insert_at n x l = l ++ [x].
Proof. intros <-. apply insert_at_len. Qed.
Lemma remove_val_notin_app k l r : ~ In k l -> remove_val k (l ++ k :: r) = Some (l ++ r).
Proof.
  induction l as [|y l IH]; intros H; cbn.
  - rewrite Nat.eqb_refl. reflexivity.
  - replace (y =? k)%nat with false by (symmetry; apply Nat.eqb_neq; intros ->; apply H; left; reflexivity).
    rewrite IH by (intros K; apply H; right; exact K). reflexivity.
Qed.
Lemma seq_S' n : seq 0 (S n) = seq 0 n ++ [n].
Proof. rewrite seq_S. reflexivity. Qed.
Lemma nth_snoc_lt {X} (l : list X) x i d : (i < length l)%nat -> nth i (l ++ [x]) d = nth i l d.
Proof. intros. apply app_nth1. lia. Qed.
Lemma nth_snoc_eq {X} (l : list X) x i d : i = length l -> nth i (l ++ [x]) d = x.
Proof. intros ->. rewrite app_nth2 by lia. rewrite Nat.sub_diag. reflexivity. Qed.

(** ** shapes *)
Lemma in_shape_len sh js : in_shape sh js -> length js = length sh.
Proof. intros H. induction H; cbn; congruence. Qed.
Lemma in_shape_rev sh js : in_shape sh js -> in_shape (rev sh) (rev js).
Proof.
  unfold in_shape. intros H. induction H as [|L j sh js Hj _ IH]; [constructor|]. cbn [rev].
  apply Forall2_app; [exact IH|]. constructor; auto.
Qed.
Lemma in_shape_rev_inv sh js : in_shape (rev sh) js -> in_shape sh (rev js).
Proof. intros H. apply in_shape_rev in H. rewrite rev_involutive in H. exact H. Qed.
Lemma in_shape_snoc sh js L j : in_shape sh js -> 0 <= j < L -> in_shape (sh ++ [L]) (js ++ [j]).
Proof. intros H K. apply Forall2_app; [exact H|]. constructor; auto. Qed.
Lemma in_shape_snoc_inv sh L js : in_shape (sh ++ [L]) js -> exists r j, js = r ++ [j] /\ in_shape sh r /\ 0 <= j < L.
Proof.
  intros H. apply Forall2_app_inv_l in H as (r & s & Hr & Hs & ->). inversion Hs as [|? j ? s' Hj Hs']; subst.
  inversion Hs'; subst. exists r, j. auto.
Qed.
Lemma in_shape_nth sh js k : in_shape sh js -> (k < length sh)%nat -> 0 <= nth k js 0 < nth k sh 0.
Proof.
  intros H. revert k. induction H as [|L j sh js Hj _ IH]; intros k Hk; cbn in Hk; [lia|].
  destruct k as [|k]; cbn; [exact Hj|]. apply IH. lia.
Qed.
Lemma in_shape_of_nth sh js : length js = length sh ->
  (forall k, (k < length sh)%nat -> 0 <= nth k js 0 < nth k sh 0) -> in_shape sh js.
Proof.
  revert js. induction sh as [|L sh IH]; intros [|j js] E H; cbn in E; try discriminate; [constructor|].
  constructor; [apply (H O); cbn; lia|]. apply IH; [congruence|]. intros k Hk. apply (H (S k)). cbn. lia.
Qed.

(** ** array equality *)
Lemma nd_eq_refl {A} (a : nd A) : nd_eq a a.
Proof. split; [reflexivity|]. auto. Qed.
Lemma nd_eq_sym {A} (a b : nd A) : nd_eq a b -> nd_eq b a.
Proof. intros [E H]. split; [auto|]. intros js Hj. symmetry. apply H. rewrite E. exact Hj. Qed.
Lemma nd_eq_trans {A} (a b c : nd A) : nd_eq a b -> nd_eq b c -> nd_eq a c.
Proof.
  intros [E1 H1] [E2 H2]. split; [congruence|]. intros js Hj. rewrite H1 by exact Hj. apply H2. rewrite <- E1. exact Hj.
Qed.

(** ** transposition *)
Lemma pos_nth axes i d : NoDup axes -> (i < length axes)%nat -> pos (nth i axes d) axes = i.
Proof.
  intros N. revert i. induction N as [|x l Hx _ IH]; intros i Hi; cbn in Hi; [lia|].
  destruct i as [|i]; cbn [nth pos]; [rewrite Nat.eqb_refl; reflexivity|].
  assert (x <> nth i l d) as Ne by (intros ->; apply Hx; apply nth_In; lia).
  apply Nat.eqb_neq in Ne. rewrite Ne. f_equal. apply IH. lia.
Qed.
Lemma nth_pos axes k d : In k axes -> nth (pos k axes) axes d = k /\ (pos k axes < length axes)%nat.
Proof.
  induction axes as [|x l IH]; intros H; [destruct H|]. cbn [pos]. destruct (Nat.eqb_spec x k) as [->|Ne]; [cbn; split; [reflexivity|lia]|].
  destruct H as [E|H]; [contradiction|]. destruct (IH H) as [E L]. cbn. split; [exact E|lia].
Qed.
Definition is_perm (axes : list nat) : Prop := Permutation axes (seq 0 (length axes)).
Lemma is_perm_NoDup axes : is_perm axes -> NoDup axes.
Proof. intros H. apply (Permutation_NoDup (Permutation_sym H)). apply seq_NoDup. Qed.
Lemma is_perm_In axes k : is_perm axes -> In k axes <-> (k < length axes)%nat.
Proof.
  intros H. split; intros K.
  - apply (Permutation_in _ H) in K. apply in_seq in K. lia.
  - apply (Permutation_in _ (Permutation_sym H)). apply in_seq. lia.
Qed.
Lemma is_perm_nth_lt axes i : is_perm axes -> (i < length axes)%nat -> (nth i axes O < length axes)%nat.
Proof. intros H Hi. apply (is_perm_In axes _ H). apply nth_In. exact Hi. Qed.
Lemma unperm_len axes js : length (unperm axes js) = length axes.
Proof. unfold unperm. rewrite map_length, seq_length. reflexivity. Qed.
Lemma nth_unperm axes js k : (k < length axes)%nat -> nth k (unperm axes js) 0 = nth (pos k axes) js 0.
Proof.
  intros H. unfold unperm.
  rewrite (nth_indep _ 0 ((fun k => nth (pos k axes) js 0) O)) by (rewrite map_length, seq_length; lia).
  rewrite (map_nth (fun k => nth (pos k axes) js 0)), seq_nth by lia. reflexivity.
Qed.
Lemma nth_ext0 (a b : list Z) : length a = length b -> (forall k, (k < length a)%nat -> nth k a 0 = nth k b 0) -> a = b.
Proof. intros. apply (nth_ext a b 0 0); auto. Qed.
Lemma unperm_unique axes js is : is_perm axes -> length is = length axes ->
  (forall i, (i < length axes)%nat -> nth (nth i axes O) is 0 = nth i js 0) -> unperm axes js = is.
Proof.
  intros P L H. apply nth_ext0; [rewrite unperm_len; auto|]. rewrite unperm_len. intros k Hk. rewrite nth_unperm by exact Hk.
  destruct (nth_pos axes k O (proj2 (is_perm_In axes k P) Hk)) as [E Lp]. rewrite <- (H _ Lp), E. reflexivity.
Qed.
Lemma shape_transpose_nth {V} axes (a : nd V) i : (i < length axes)%nat ->
  nth i (shape (nd_transpose axes a)) 0 = nth (nth i axes O) (shape a) 0.
Proof.
  intros H. cbn [shape nd_transpose].
  rewrite (nth_indep _ 0 ((fun k => nth k (shape a) 0) O)) by (rewrite map_length; exact H).
  rewrite (map_nth (fun k => nth k (shape a) 0)). reflexivity.
Qed.
Lemma unperm_in_shape {V} axes (a : nd V) js : is_perm axes -> length axes = length (shape a) ->
  in_shape (shape (nd_transpose axes a)) js -> in_shape (shape a) (unperm axes js).
Proof.
  intros P L H. apply in_shape_of_nth; [rewrite unperm_len; exact L|]. intros k Hk. rewrite <- L in Hk.
  rewrite nth_unperm by exact Hk. destruct (nth_pos axes k O (proj2 (is_perm_In axes k P) Hk)) as [E Lp].
  pose proof (in_shape_nth _ _ (pos k axes) H) as K. cbn [shape nd_transpose] in K. rewrite map_length in K. specialize (K Lp).
  change (map (fun k0 => nth k0 (shape a) 0) axes) with (shape (nd_transpose axes a)) in K.
  rewrite shape_transpose_nth, E in K by exact Lp. exact K.
Qed.

Lemma perm_rev_seq n : is_perm (rev (seq 0 n)).
Proof. unfold is_perm. rewrite rev_length, seq_length. apply Permutation_sym, Permutation_rev. Qed.
Lemma nth_rev_seq s n i : (i < n)%nat -> nth i (rev (seq s n)) O = (s + (n - 1 - i))%nat.
Proof. intros H. rewrite rev_nth by (rewrite seq_length; lia). rewrite seq_length, seq_nth by lia. lia. Qed.
Lemma unperm_rev_seq n js : length js = n -> unperm (rev (seq 0 n)) js = rev js.
Proof.
  intros L. apply unperm_unique; [apply perm_rev_seq|rewrite !rev_length, seq_length; exact L|].
  rewrite rev_length, seq_length. intros i Hi. rewrite nth_rev_seq by exact Hi. rewrite rev_nth by lia. f_equal. lia.
Qed.
Lemma perm_flat n : is_perm (O :: rev (seq 1 n)).
Proof.
  unfold is_perm. cbn [length]. rewrite rev_length, seq_length. cbn [seq]. apply perm_skip. apply Permutation_sym, Permutation_rev.
Qed.
Lemma unperm_flat n c r : length r = n -> unperm (O :: rev (seq 1 n)) (c :: r) = c :: rev r.
Proof.
  intros L. apply unperm_unique; [apply perm_flat|cbn [length]; rewrite !rev_length, seq_length; lia|].
  cbn [length]. rewrite rev_length, seq_length. intros [|i] Hi; [reflexivity|]. cbn [nth].
  rewrite nth_rev_seq by lia. replace (1 + (n - 1 - i))%nat with (S (n - 1 - i)) by lia. cbn [nth].
  rewrite rev_nth by lia. f_equal. lia.
Qed.
Lemma perm_inter n : is_perm (rev (seq 0 n) ++ [n]).
Proof.
  unfold is_perm. rewrite app_length, rev_length, seq_length. cbn [length]. rewrite Nat.add_1_r, seq_S'.
  apply Permutation_app_tail. apply Permutation_sym, Permutation_rev.
Qed.
Lemma unperm_inter n c r : length r = n -> unperm (rev (seq 0 n) ++ [n]) (r ++ [c]) = rev r ++ [c].
Proof.
  intros L. apply unperm_unique; [apply perm_inter|rewrite !app_length, !rev_length, seq_length; cbn; lia|].
  rewrite app_length, rev_length, seq_length. cbn [length]. intros i Hi.
  destruct (Nat.eq_dec i n) as [->|Ne].
  - rewrite (nth_snoc_eq (rev (seq 0 n))) by (rewrite rev_length, seq_length; reflexivity).
    rewrite !nth_snoc_eq by (rewrite ?rev_length; lia). reflexivity.
  - rewrite (nth_snoc_lt (rev (seq 0 n))) by (rewrite rev_length, seq_length; lia).
    rewrite nth_rev_seq by lia. rewrite !nth_snoc_lt by (rewrite ?rev_length; lia). rewrite rev_nth by lia. f_equal. lia.
Qed.
Lemma map_nth_rev_seq (sh : list Z) n : length sh = n -> map (fun k => nth k sh 0) (rev (seq 0 n)) = rev sh.
Proof.
  intros L. rewrite map_rev. f_equal. apply nth_ext0; [rewrite map_length, seq_length; auto|].
  rewrite map_length, seq_length. intros k Hk.
  rewrite (nth_indep _ 0 ((fun k => nth k sh 0) O)) by (rewrite map_length, seq_length; lia).
  rewrite (map_nth (fun k => nth k sh 0)), seq_nth by lia. reflexivity.
Qed.
Lemma shape_flat n c (sh : list Z) : length sh = n -> map (fun k => nth k (c :: sh) 0) (O :: rev (seq 1 n)) = c :: rev sh.
Proof.
  intros L. cbn [map nth]. f_equal. rewrite <- seq_shift, <- map_rev, map_map. cbn [nth]. apply map_nth_rev_seq. exact L.
Qed.
Lemma shape_inter n c (sh : list Z) : length sh = n ->
  map (fun k => nth k (sh ++ [c]) 0) (rev (seq 0 n) ++ [n]) = rev sh ++ [c].
Proof.
  intros L. rewrite map_app. cbn [map]. rewrite nth_snoc_eq by auto. f_equal.
  rewrite <- (map_nth_rev_seq sh n L). apply map_ext_in. intros k Hk. apply in_rev, in_seq in Hk. apply nth_snoc_lt. lia.
Qed.

(** ** layout detection *)
Lemma trim_id fuel sh dat : (S (length sh) <= length dat)%nat -> trim fuel sh dat = sh.
Proof.
  intros H. destruct fuel; [reflexivity|]. cbn [trim].
  replace (length dat <? S (length sh))%nat with false by lia. reflexivity.
Qed.
Lemma detect_scalar sh : detect sh sh = LScalar.
Proof. unfold detect. rewrite leqb_refl. reflexivity. Qed.
Lemma detect_flat sh c : detect sh (c :: sh) = LFlat.
Proof.
  unfold detect. rewrite leqb_len by (cbn; lia). rewrite trim_id by (cbn; lia). rewrite leqb_len by (cbn; lia).
  cbn [tl]. rewrite leqb_refl. reflexivity.
Qed.
(** the shape of an interlaced array that looks like a flat one *)
Definition ambiguous (sh : list Z) (c : Z) : Prop := Forall (eq c) sh.
Lemma tl_snoc_ambiguous sh c : tl (sh ++ [c]) = sh <-> ambiguous sh c.
Proof.
  unfold ambiguous. destruct sh as [|x sh]; [cbn; split; auto|]. cbn [app tl]. revert x.
  induction sh as [|y sh IH]; intros x; cbn [app].
  - split; intros H.
    + injection H as ->. repeat constructor.
    + inversion H; subst. reflexivity.
  - split; intros H.
    + injection H as -> H. assert (H2 := proj1 (IH x) H). constructor; [inversion H2; auto|exact H2].
    + inversion H as [|? ? E1 H2]; subst. inversion H2 as [|? ? E2 H3]; subst. f_equal. apply (IH y). exact H2.
Qed.
Lemma detect_inter sh c : ~ ambiguous sh c -> detect sh (sh ++ [c]) = LInter.
Proof.
  intros H. unfold detect. rewrite leqb_len by (rewrite app_length; cbn; lia). rewrite trim_id by (rewrite app_length; cbn; lia).
  rewrite leqb_len by (rewrite app_length; cbn; lia).
  rewrite leqb_neq by (intros E; apply tl_snoc_ambiguous in E; contradiction).
  rewrite removelast_snoc, leqb_refl. reflexivity.
Qed.
Lemma detect_ambiguous sh c : ambiguous sh c -> detect sh (sh ++ [c]) = LFlat.
Proof.
  intros H. unfold detect. rewrite leqb_len by (rewrite app_length; cbn; lia). rewrite trim_id by (rewrite app_length; cbn; lia).
  rewrite leqb_len by (rewrite app_length; cbn; lia).
  rewrite (proj2 (leqb_eq _ _) (proj2 (tl_snoc_ambiguous sh c) H)). reflexivity.
Qed.
Lemma ambiguous_rev sh c : ambiguous (rev sh) c <-> ambiguous sh c.
Proof. unfold ambiguous. rewrite !Forall_forall. split; intros H x Hx; apply H; [rewrite <- in_rev|rewrite in_rev]; auto. Qed.

(** ** reversing axes of the loaded array *)
Lemma n_axes_full n : n_axes (repeat efull n) = n.
Proof. pose proof (n_axes_app_full [] n) as H. cbn in H. exact H. Qed.
Lemma newax_inds_full n : forall k, newax_inds_from k (repeat efull n) = [].
Proof. induction n as [|n IH]; intros k; cbn; auto. Qed.
Lemma fwd_full L r : 0 <= L -> exists f d, fwd1 L efull r = Ok (f, d).
Proof.
  intros H. unfold fwd1, efull, fwd_slice. cbn [p_step p_start p_stop].
  assert (E1 : (L <? 0) = false) by lia. assert (E2 : (L <? L) = false) by lia. assert (E3 : (L <? 0 + L) = false) by lia.
  change (0 <? 0) with false. cbn iota. cbn zeta. change (0 <? 0) with false. rewrite ?E1. cbn [orb]. rewrite ?E1, ?E2. cbn [orb].
  change (1 <? 0) with false. change (1 =? 0) with false. change (0 <? 1) with true. cbn iota. destruct r.
  - rewrite Z.mod_1_r. replace (L - L + 0) with 0 by lia. rewrite Z.sub_0_r.
    replace (0 <=? L) with true by lia. destruct (Z.eq_dec L 0) as [->|Ne]; [eexists; eexists; reflexivity|].
    replace (L =? 0) with false by lia. replace (0 <? L) with true by lia. cbn. eexists; eexists; reflexivity.
  - replace (0 <=? L) with true by lia. destruct (Z.eq_dec L 0) as [->|Ne]; [eexists; eexists; reflexivity|].
    replace (L =? 0) with false by lia. replace (0 <? L) with true by lia. cbn. eexists; eexists; reflexivity.
Qed.
Lemma fwd_loop_full sh : forall rv, Forall (fun L => 0 <= L) sh -> length rv = length sh ->
  exists fs ds, fwd_loop (repeat efull (length sh)) sh rv = Ok (fs, ds).
Proof.
  induction sh as [|L sh IH]; intros [|r rv] F E; cbn in E; try discriminate; [exists [], []; reflexivity|].
  inversion F as [|? ? HL F']; subst. cbn [length repeat fwd_loop]. destruct (fwd_full L r HL) as (f & d & ->).
  destruct (IH rv F' ltac:(congruence)) as (fs & ds & ->). eexists; eexists; reflexivity.
Qed.
Lemma entries_ok_full sh : forall rv, entries_ok sh (repeat efull (length sh)) rv.
Proof.
  induction sh as [|L sh IH]; intros rv; [exact I|]. cbn [length repeat entries_ok efull]. split; [|apply IH].
  cbn. unfold bad_start. cbn. intros (_ & H & _). lia.
Qed.
Lemma axis_flags_full n : forall rv, length rv = n -> axis_flags (repeat efull n) rv = rv.
Proof. induction n as [|n IH]; intros [|r rv] H; cbn in *; try discriminate; [reflexivity|]. f_equal. apply IH. congruence. Qed.
Lemma resolve_full sh : Forall (fun L => 0 <= L) sh ->
  resolve (repeat efull (length sh)) sh = Some (map (fun L => ASel (prog 0 1 (Z.to_nat L))) sh).
Proof.
  intros H. change (repeat efull (length sh)) with ([] ++ repeat efull (length sh)). rewrite resolve_pad; auto.
Qed.
Lemma out_shape_full sh : Forall (fun L => 0 <= L) sh -> out_shape (map (fun L => ASel (prog 0 1 (Z.to_nat L))) sh) = sh.
Proof. intros H. induction H as [|L sh HL _ IH]; [reflexivity|]. cbn. rewrite IH, prog_length. f_equal. lia. Qed.
Lemma src_idx_full sh : forall js, in_shape sh js -> src_idx (map (fun L => ASel (prog 0 1 (Z.to_nat L))) sh) js = js.
Proof.
  intros js H. induction H as [|L j sh js Hj _ IH]; [reflexivity|]. cbn [map src_idx]. rewrite IH. f_equal.
  rewrite (nth_error_nth _ _ 0 (prog_nth 0 1 (Z.to_nat L) (Z.to_nat j) ltac:(lia))). lia.
Qed.

(** [arr[first][second]] for the whole array with some axes reversed *)
Lemma reflect_whole {A} (a : nd A) sh rv : shape a = sh -> Forall (fun L => 0 <= L) sh -> length rv = length sh ->
  exists first second b d, make_fwd_slice sh [] rv = Ok (first, second) /\
    nd_index a first = Some b /\ nd_index b second = Some d /\ nd_eq d (nd_flip rv a).
Proof.
  intros Es Hp Hl. subst sh.
  assert (E : make_fwd_slice (shape a) [] rv = make_fwd_slice (shape a) (repeat efull (length (shape a))) rv).
  { unfold make_fwd_slice, insert_newaxes. rewrite newax_inds_full. cbn [newax_inds_from fold_left length app].
    fold efull. rewrite !repeat_length, Nat.sub_0_r, Nat.sub_diag. cbn [repeat]. rewrite app_nil_r, ?repeat_length. reflexivity. }
  destruct (fwd_loop_full (shape a) rv Hp Hl) as (fs & ds & Ef).
  assert (Em : make_fwd_slice (shape a) [] rv = Ok (final_first fs, final_second ds)).
  { unfold make_fwd_slice, insert_newaxes. cbn [newax_inds_from fold_left length app]. rewrite Nat.sub_0_r. fold efull.
    rewrite repeat_length. rewrite <- Hl, Nat.sub_diag. cbn [repeat]. rewrite app_nil_r, Hl, Ef. reflexivity. }
  exists (final_first fs), (final_second ds). rewrite Em. rewrite E in Em.
  destruct (make_fwd_slice_nd_lemma a (repeat efull (length (shape a))) rv _ _ Hp ltac:(rewrite n_axes_full; lia) ltac:(rewrite repeat_length; lia)
    (entries_ok_full (shape a) rv) Em) as (_ & b & got & want & H1 & H2 & H3 & H4).
  exists b, got. split; [reflexivity|]. split; [exact H1|]. split; [exact H2|].
  rewrite axis_flags_full in H3 by exact Hl.
  apply (nd_eq_trans _ _ _ H4). unfold nd_index in H3. cbn [shape nd_flip] in H3. rewrite resolve_full in H3 by exact Hp.
  injection H3 as <-. split; cbn [shape get nd_flip]; [apply out_shape_full; exact Hp|].
  intros js Hj. rewrite out_shape_full in Hj by exact Hp. rewrite src_idx_full by exact Hj. reflexivity.
Qed.
