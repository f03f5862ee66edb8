(** C57: separators as blocks of topologies that contain every kind. *)
From Verif Require Import SepModel.
From Coq Require Import Lia ZifyBool QArith Lqa.
Open Scope Z_scope.

(** * specification *)
(* some value of the block of k + 1 by k + 1 values from (i, j) has bit b (and the mask keeps this bit) *)
Definition block_has (t : topo) (m k i j b : Z) : Prop :=
  exists p q, i <= p <= i + k /\ j <= q <= j + k /\ Z.testbit (at_ t p q) b = true /\ (m = 0 \/ Z.testbit m b = true).
(* the block is inside the array and together its values have exactly the bits of sep *)
Definition separator_block (t : topo) (m sep k i j : Z) : Prop :=
  0 <= i < rows t - k /\ 0 <= j < cols t - k /\ forall b, 0 <= b -> (Z.testbit sep b = true <-> block_has t m k i j b).

(** * passes *)
Fixpoint iter (k : nat) (t : topo) : topo := match k with O => t | S k => halve (iter k t) end.
Lemma iter_halve k t : iter k (halve t) = halve (iter k t).
Proof. induction k as [|k IH]; [reflexivity|]. cbn [iter]. rewrite IH. reflexivity. Qed.
Lemma iter_shape k t : rows (iter k t) = Z.max (Z.min 0 (rows t)) (rows t - Z.of_nat k) /\ cols (iter k t) = Z.max (Z.min 0 (cols t)) (cols t - Z.of_nat k) \/ rows t < 0 \/ cols t < 0.
Proof.
  destruct (Z_lt_dec (rows t) 0) as [L|L]; [right; left; exact L|]. destruct (Z_lt_dec (cols t) 0) as [M|M]; [right; right; exact M|]. left.
  induction k as [|k (IH1 & IH2)]; [cbn [iter]; lia|]. cbn [iter halve rows cols]. rewrite IH1, IH2. lia.
Qed.
Lemma iter_bits t b k : forall i j, Z.testbit (at_ (iter k t) i j) b = true <-> exists p q, i <= p <= i + Z.of_nat k /\ j <= q <= j + Z.of_nat k /\ Z.testbit (at_ t p q) b = true.
Proof.
  induction k as [|k IH]; intros i j.
  - cbn [iter]. split; [intros H; exists i, j; repeat split; try lia; exact H|intros (p & q & P & Q & H)]. replace i with p by lia. replace j with q by lia. exact H.
  - cbn [iter halve at_]. rewrite !Z.lor_spec, !orb_true_iff, !IH. split.
    + intros [[[(p & q & P & Q & H)|(p & q & P & Q & H)]|(p & q & P & Q & H)]|(p & q & P & Q & H)]; exists p, q; repeat split; try lia; exact H.
    + intros (p & q & P & Q & H). destruct (Z_le_dec p (i + Z.of_nat k)), (Z_le_dec q (j + Z.of_nat k)).
      * left; left; left. exists p, q. repeat split; try lia; exact H.
      * left; left; right. exists p, q. repeat split; try lia; exact H.
      * left; right. exists p, q. repeat split; try lia; exact H.
      * right. exists p, q. repeat split; try lia; exact H.
Qed.
Lemma in_where sep t i j : In (i, j) (where_ sep t) <-> 0 <= i < rows t /\ 0 <= j < cols t /\ at_ t i j = sep.
Proof.
  unfold where_. rewrite in_flat_map. split.
  - intros (i' & I & H). apply in_flat_map in H. destruct H as (j' & J & H). apply in_seq in I, J. destruct (_ =? sep) eqn:E; [|destruct H]. destruct H as [H|[]]. injection H as <- <-. lia.
  - intros (I & J & E). exists (Z.to_nat i). split; [apply in_seq; lia|]. apply in_flat_map. exists (Z.to_nat j). split; [apply in_seq; lia|]. rewrite !Z2Nat.id, E, Z.eqb_refl by lia. left. reflexivity.
Qed.
Lemma nodup_app {A} (l m : list A) : NoDup l -> NoDup m -> (forall x, In x l -> ~ In x m) -> NoDup (l ++ m).
Proof. intros L. induction L as [|a l N L IH]; intros M D; [exact M|]. cbn. constructor; [rewrite in_app_iff; intros [I|I]; [contradiction|apply (D a); [left; reflexivity|exact I]]|]. apply IH; [exact M|]. intros x I. apply D. right. exact I. Qed.
Lemma nodup_flat_map {A B} (f : A -> list B) l : NoDup l -> (forall a, In a l -> NoDup (f a)) -> (forall a a' x, In a l -> In a' l -> In x (f a) -> In x (f a') -> a = a') -> NoDup (flat_map f l).
Proof.
  intros L. induction L as [|a l N L IH]; intros F D; [constructor|]. cbn [flat_map]. apply nodup_app; [apply F; left; reflexivity|apply IH; [intros a' I; apply F; right; exact I|intros a1 a2 x I1 I2; apply D; right; assumption]|].
  intros x I J. apply in_flat_map in J. destruct J as (a' & Ia & J). assert (a = a') by (apply (D a a' x); [left; reflexivity|right; exact Ia|exact I|exact J]). subst a'. contradiction.
Qed.
Lemma nodup_where sep t : NoDup (where_ sep t).
Proof.
  unfold where_. apply nodup_flat_map; [apply seq_NoDup| |].
  - intros i _. apply nodup_flat_map; [apply seq_NoDup| |].
    + intros j _. destruct (_ =? _); repeat constructor; intros [].
    + intros j j' x _ _ A B. destruct (_ =? _) in A; [|destruct A]. destruct (_ =? _) in B; [|destruct B]. destruct A as [<-|[]], B as [B|[]]. injection B as B. lia.
  - intros i i' x _ _ A B. apply in_flat_map in A, B. destruct A as (j & _ & A), B as (j' & _ & B). destruct (_ =? _) in A; [|destruct A]. destruct (_ =? _) in B; [|destruct B]. destruct A as [<-|[]], B as [B|[]]. injection B as B. lia.
Qed.

Lemma loop_spec sep mn passes : forall i t ind, exists k r ind', bitor_loop passes i mn (false, false) false sep t ind = inl (r, ind') /\
  (k <= passes)%nat /\ r = iter k t /\ (k = 0%nat -> passes = 0%nat /\ ind' = ind) /\ ((0 < k)%nat -> ind' = where_ sep r) /\ ((0 < k)%nat -> (ind' <> [] /\ mn <= i + Z.of_nat k) \/ k = passes) /\
  forall k', (0 < k' < k)%nat -> mn <= i + Z.of_nat k' -> where_ sep (iter k' t) = [].
Proof.
  induction passes as [|n IH]; intros i t ind.
  - exists 0%nat, t, ind. repeat split; try lia; try reflexivity.
  - cbn [bitor_loop wrap fst snd andb orb]. destruct ((mn <=? i + 1) && negb (match where_ sep (halve t) with [] => true | _ => false end)) eqn:E.
    + exists 1%nat, (halve t), (where_ sep (halve t)). split; [reflexivity|]. split; [lia|]. split; [reflexivity|]. split; [discriminate|]. split; [reflexivity|]. split; [|lia].
      intros _. left. apply andb_true_iff in E. destruct E as (E1 & E2). split; [destruct (where_ sep (halve t)); discriminate|lia].
    + destruct (IH (i + 1) (halve t) (where_ sep (halve t))) as (k & r & ind' & L & K & R & Z0 & P & Q & M). exists (S k), r, ind'. split; [exact L|]. split; [lia|]. split; [rewrite R, iter_halve; reflexivity|]. split; [discriminate|].
      destruct k as [|k].
      * destruct (Z0 eq_refl) as (Zn & Ze). subst n. cbn [iter] in R. subst r ind'. split; [reflexivity|]. split; [right; reflexivity|lia].
      * split; [intros _; apply P; lia|]. split; [intros _; destruct (Q ltac:(lia)) as [(A & B)|A]; [left; split; [exact A|lia]|right; lia]|].
        intros [|[|k']] K' Mn; [lia| |].
        -- cbn [iter]. apply andb_false_iff in E. destruct E as [E|E]; [lia|]. destruct (where_ sep (halve t)); [reflexivity|discriminate].
        -- specialize (M (S k') ltac:(lia) ltac:(lia)). rewrite iter_halve in M. exact M.
Qed.
Lemma mask_bits m t i j b : 0 <= b -> Z.testbit (at_ (mask m t) i j) b = true <-> Z.testbit (at_ t i j) b = true /\ (m = 0 \/ Z.testbit m b = true).
Proof.
  intros B. unfold mask. destruct (m =? 0) eqn:E; [intuition lia|]. cbn [at_]. rewrite Z.land_spec, andb_true_iff. intuition lia.
Qed.
Lemma mask_shape m t : rows (mask m t) = rows t /\ cols (mask m t) = cols t /\ ax (mask m t) = ax t /\ ay (mask m t) = ay t.
Proof. unfold mask. destruct (m =? 0); auto. Qed.
Lemma where_block sep m t k i j : 0 <= rows t -> 0 <= cols t -> In (i, j) (where_ sep (iter k (mask m t))) <-> separator_block t m sep (Z.of_nat k) i j.
Proof.
  intros Hr Hc. rewrite in_where. destruct (mask_shape m t) as (Mr & Mc & _). destruct (iter_shape k (mask m t)) as [(-> & ->)|[C|C]]; rewrite ?Mr, ?Mc in *; try lia. unfold separator_block.
  assert (Q : at_ (iter k (mask m t)) i j = sep <-> forall b, 0 <= b -> (Z.testbit sep b = true <-> block_has t m (Z.of_nat k) i j b)).
  { assert (Bh : forall b, 0 <= b -> Z.testbit (at_ (iter k (mask m t)) i j) b = true <-> block_has t m (Z.of_nat k) i j b).
    { intros b B. rewrite iter_bits. unfold block_has. split; intros (p & q & P & Q & H); exists p, q; (split; [exact P|]); (split; [exact Q|]); [apply (mask_bits m t p q b B), H|apply (mask_bits m t p q b B), H]. }
    split.
    - intros <- b B. rewrite Bh by exact B. reflexivity.
    - intros H. apply Z.bits_inj'. intros b B. specialize (Bh b B). specialize (H b B). destruct (Z.testbit (at_ _ i j) b), (Z.testbit sep b); try reflexivity; [symmetry; apply H, Bh; reflexivity|apply Bh, H; reflexivity]. }
  rewrite Q. split; intros (A & B & C); (split; [lia|split; [lia|exact C]]).
Qed.

(** * theorems *)
(** The points found are exactly the blocks that contain together all topologies of sep_val and no other; blocks have the
    smallest size, not below min_depth, for which there is one. *)
Theorem C57_bitor : forall mn mx sep m t, (0 < mx)%nat -> 0 <= rows t -> 0 <= cols t ->
  exists r ind k, bitor mn mx sep m (false, false) false t = inl (r, ind) /\ 1 <= k <= Z.of_nat mx /\
    (forall i j, In (i, j) ind <-> separator_block t m sep k i j) /\ NoDup ind /\
    (ind <> [] -> mn <= k \/ k = Z.of_nat mx) /\ (ind = [] -> k = Z.of_nat mx) /\
    forall k' i j, 1 <= k' < k -> mn <= k' -> ~ separator_block t m sep k' i j.
Proof.
  intros mn mx sep m t M R C. unfold bitor. destruct mx as [|mx]; [lia|]. destruct (loop_spec sep mn (S mx) 0 (mask m t) []) as (k & r & ind & L & K & E & Z0 & P & Q & N).
  exists r, ind, (Z.of_nat k). split; [exact L|]. assert (Kp : (0 < k)%nat) by (destruct k; [destruct (Z0 eq_refl); lia|lia]). specialize (P Kp). specialize (Q Kp). split; [lia|]. subst ind r. split; [intros i j; apply where_block; assumption|]. split; [apply nodup_where|].
  split; [intros _; destruct Q as [(_ & Q)|Q]; [left; lia|right; lia]|]. split; [intros W; destruct Q as [(Q & _)|Q]; [contradiction|lia]|].
  intros k' i j K' Mn S. rewrite <- (Z2Nat.id k') in S by lia. apply where_block in S; [|assumption|assumption]. rewrite (N (Z.to_nat k') ltac:(lia) ltac:(lia)) in S. exact S.
Qed.
Print Assumptions C57_bitor.

(** Its coordinates are inside the block, and in the middle of it on a uniform grid. *)
Lemma iter_ax t n k : (forall i, 0 <= i < n -> (ax t i <= ax t (i + 1)%Z)%Q) -> forall i, 0 <= i -> i + Z.of_nat k <= n -> (ax t i <= ax (iter k t) i)%Q /\ (ax (iter k t) i <= ax t (i + Z.of_nat k)%Z)%Q.
Proof.
  intros H. induction k as [|k IH]; intros i I N; cbn [iter halve ax]; [replace (i + Z.of_nat 0) with i by lia; split; apply Qle_refl|].
  destruct (IH i I ltac:(lia)) as (A & B). destruct (IH (i + 1) ltac:(lia) ltac:(lia)) as (C & D). replace (i + 1 + Z.of_nat k) with (i + Z.of_nat (S k)) in D by lia.
  assert (E := H i ltac:(lia)). assert (F := H (i + Z.of_nat k) ltac:(lia)). replace (i + Z.of_nat k + 1) with (i + Z.of_nat (S k)) in F by lia. split; lra.
Qed.
Lemma iter_ay t n k : (forall i, 0 <= i < n -> (ay t i <= ay t (i + 1)%Z)%Q) -> forall i, 0 <= i -> i + Z.of_nat k <= n -> (ay t i <= ay (iter k t) i)%Q /\ (ay (iter k t) i <= ay t (i + Z.of_nat k)%Z)%Q.
Proof.
  intros H. induction k as [|k IH]; intros i I N; cbn [iter halve ay]; [replace (i + Z.of_nat 0) with i by lia; split; apply Qle_refl|].
  destruct (IH i I ltac:(lia)) as (A & B). destruct (IH (i + 1) ltac:(lia) ltac:(lia)) as (C & D). replace (i + 1 + Z.of_nat k) with (i + Z.of_nat (S k)) in D by lia.
  assert (E := H i ltac:(lia)). assert (F := H (i + Z.of_nat k) ltac:(lia)). replace (i + Z.of_nat k + 1) with (i + Z.of_nat (S k)) in F by lia. split; lra.
Qed.
Lemma iter_uniform t k x0 dx y0 dy : (forall i, ax t i == x0 + inject_Z i * dx)%Q -> (forall i, ay t i == y0 + inject_Z i * dy)%Q ->
  (forall i, ax (iter k t) i == x0 + (inject_Z i + inject_Z (Z.of_nat k) / 2) * dx)%Q /\ (forall i, ay (iter k t) i == y0 + (inject_Z i + inject_Z (Z.of_nat k) / 2) * dy)%Q.
Proof.
  intros X Y. induction k as [|k (IH1 & IH2)]; cbn [iter].
  - split; intros i; [rewrite X|rewrite Y]; change (inject_Z (Z.of_nat 0)) with 0%Q; field.
  - cbn [halve ax ay]. rewrite Nat2Z.inj_succ. unfold Z.succ. rewrite inject_Z_plus. split; intros i; [rewrite !IH1|rewrite !IH2]; rewrite inject_Z_plus; change (inject_Z 1) with 1%Q; field.
Qed.
Theorem C57_coords : forall mn mx sep m t r ind, 0 <= rows t -> 0 <= cols t -> bitor mn mx sep m (false, false) false t = inl (r, ind) ->
  exists k, 1 <= k <= Z.of_nat mx /\
    (forall i j, In (i, j) ind -> 0 <= i /\ i + k < rows t /\ 0 <= j /\ j + k < cols t /\
      ((forall p, 0 <= p < rows t - 1 -> (ax t p <= ax t (p + 1)%Z)%Q) -> (ax t i <= ax r i)%Q /\ (ax r i <= ax t (i + k)%Z)%Q) /\
      ((forall p, 0 <= p < cols t - 1 -> (ay t p <= ay t (p + 1)%Z)%Q) -> (ay t j <= ay r j)%Q /\ (ay r j <= ay t (j + k)%Z)%Q)) /\
    forall x0 dx y0 dy, (forall i, ax t i == x0 + inject_Z i * dx)%Q -> (forall i, ay t i == y0 + inject_Z i * dy)%Q ->
      forall i j, (ax r i == x0 + (inject_Z i + inject_Z k / 2) * dx)%Q /\ (ay r j == y0 + (inject_Z j + inject_Z k / 2) * dy)%Q.
Proof.
  intros mn mx sep m t r ind R C H. unfold bitor in H. destruct mx as [|mx]; [discriminate|]. destruct (loop_spec sep mn (S mx) 0 (mask m t) []) as (k & r' & ind' & L & K & E & Z0 & P & Q & N). rewrite L in H. injection H as <- <-.
  assert (Kp : (0 < k)%nat) by (destruct k; [destruct (Z0 eq_refl); lia|lia]). exists (Z.of_nat k). split; [lia|]. destruct (mask_shape m t) as (Mr & Mc & Mx & My). subst r'. split.
  - intros i j I. rewrite (P Kp) in I. apply where_block in I; [|assumption|assumption]. destruct I as (I1 & I2 & _). split; [lia|]. split; [lia|]. split; [lia|]. split; [lia|]. rewrite <- Mx, <- My. split; intros In; [apply (iter_ax _ (rows t - 1) k In); lia|apply (iter_ay _ (cols t - 1) k In); lia].
  - intros x0 dx y0 dy X Y i j. rewrite <- Mx in X. rewrite <- My in Y. destruct (iter_uniform _ k x0 dx y0 dy X Y) as (A & B). split; [apply A|apply B].
Qed.
Print Assumptions C57_coords.

(** With periodic axes: what is found has all topologies of sep_val, taken from the array, and its own block has no other. *)
Lemma wrap_bits pd t t' : 0 <= rows t -> 0 <= cols t -> wrap pd t = inl t' -> rows t' = rows t /\ cols t' = cols t /\
  forall i j b, 0 <= i < rows t -> 0 <= j < cols t -> (Z.testbit (at_ t i j) b = true -> Z.testbit (at_ t' i j) b = true) /\
    (Z.testbit (at_ t' i j) b = true -> exists p q, 0 <= p < rows t /\ 0 <= q < cols t /\ Z.testbit (at_ t p q) b = true).
Proof.
  intros R C. unfold wrap. destruct (_ || _) eqn:E; [discriminate|]. intros H. injection H as <-.
  assert (Wr : forall s i j b, rows s = rows t -> cols s = cols t -> 0 <= i < rows t -> 0 <= j < cols t -> (Z.testbit (at_ s i j) b = true -> Z.testbit (at_ (wrap_rows s) i j) b = true) /\ (Z.testbit (at_ (wrap_rows s) i j) b = true -> exists p q, 0 <= p < rows t /\ 0 <= q < cols t /\ Z.testbit (at_ s p q) b = true)).
  { intros s i j b Sr Sc I J. cbn [wrap_rows at_]. rewrite Sr. destruct ((i =? 0) || (i =? rows t - 1)) eqn:B; [|split; [auto|intros H; exists i, j; auto]]. rewrite Z.lor_spec, orb_true_iff. split.
    - intros H. apply orb_true_iff in B. destruct B as [B|B]; [left|right]; [replace 0 with i by lia|replace (rows t - 1) with i by lia]; exact H.
    - intros [H|H]; [exists 0, j|exists (rows t - 1), j]; (split; [lia|split; [lia|exact H]]). }
  assert (Wc : forall s i j b, rows s = rows t -> cols s = cols t -> 0 <= i < rows t -> 0 <= j < cols t -> (Z.testbit (at_ s i j) b = true -> Z.testbit (at_ (wrap_cols s) i j) b = true) /\ (Z.testbit (at_ (wrap_cols s) i j) b = true -> exists p q, 0 <= p < rows t /\ 0 <= q < cols t /\ Z.testbit (at_ s p q) b = true)).
  { intros s i j b Sr Sc I J. cbn [wrap_cols at_]. rewrite Sc. destruct ((j =? 0) || (j =? cols t - 1)) eqn:B; [|split; [auto|intros H; exists i, j; auto]]. rewrite Z.lor_spec, orb_true_iff. split.
    - intros H. apply orb_true_iff in B. destruct B as [B|B]; [left|right]; [replace 0 with j by lia|replace (cols t - 1) with j by lia]; exact H.
    - intros [H|H]; [exists i, 0|exists i, (cols t - 1)]; (split; [lia|split; [lia|exact H]]). }
  destruct (fst pd), (snd pd); (split; [reflexivity|split; [reflexivity|]]); intros i j b I J.
  - destruct (Wc (wrap_rows t) i j b eq_refl eq_refl I J) as (A & B). split.
    + intros H. apply A, Wr; auto.
    + intros H. destruct (B H) as (p & q & P & Q & H'). exact (proj2 (Wr t p q b eq_refl eq_refl P Q) H').
  - apply Wr; auto.
  - apply Wc; auto.
  - split; [auto|]. intros H. exists i, j. auto.
Qed.
Definition within (t t' : topo) (k : Z) : Prop := rows t' = Z.max 0 (rows t - k) /\ cols t' = Z.max 0 (cols t - k) /\
  forall i j b, 0 <= i < rows t' -> 0 <= j < cols t' ->
    (forall p q, i <= p <= i + k -> j <= q <= j + k -> Z.testbit (at_ t p q) b = true -> Z.testbit (at_ t' i j) b = true) /\
    (Z.testbit (at_ t' i j) b = true -> exists p q, 0 <= p < rows t /\ 0 <= q < cols t /\ Z.testbit (at_ t p q) b = true).
Lemma within_step pd t s s' k : 0 <= k -> 0 <= rows t -> 0 <= cols t -> within t s k -> wrap pd s = inl s' -> within t (halve s') (k + 1).
Proof.
  intros K R C (A & B & D) W. assert (Rs : 0 <= rows s) by lia. assert (Cs : 0 <= cols s) by lia. destruct (wrap_bits pd s s' Rs Cs W) as (A' & B' & D'). split; [cbn [halve rows]; lia|]. split; [cbn [halve cols]; lia|].
  intros i j b I J. cbn [halve rows cols at_] in *. split.
  - intros p q P Q H. assert (G : forall u v, (u = i \/ u = i + 1) -> (v = j \/ v = j + 1) -> u <= p <= u + k -> v <= q <= v + k -> Z.testbit (at_ s' u v) b = true).
    { intros u v Hu Hv Pu Qv. apply (proj1 (D' u v b ltac:(lia) ltac:(lia))). apply (proj1 (D u v b ltac:(lia) ltac:(lia)) p q Pu Qv H). }
    rewrite !Z.lor_spec, !orb_true_iff. destruct (Z_le_dec p (i + k)), (Z_le_dec q (j + k)); [left; left; left|left; left; right|left; right|right]; apply G; lia.
  - assert (G : forall u v, (u = i \/ u = i + 1) -> (v = j \/ v = j + 1) -> Z.testbit (at_ s' u v) b = true -> exists p q, 0 <= p < rows t /\ 0 <= q < cols t /\ Z.testbit (at_ t p q) b = true).
    { intros u v Hu Hv H. destruct (proj2 (D' u v b ltac:(lia) ltac:(lia)) H) as (p & q & P & Q & H'). exact (proj2 (D p q b P Q) H'). }
    rewrite !Z.lor_spec, !orb_true_iff. intros [[[H|H]|H]|H]; (eapply G; [| |exact H]; lia).
Qed.
Lemma periodic_loop sep mn pd t passes : 0 <= rows t -> 0 <= cols t -> forall i s ind r ind', 0 <= i -> within t s i -> (0 < passes)%nat -> bitor_loop passes i mn pd false sep s ind = inl (r, ind') ->
  exists k, i < k <= i + Z.of_nat passes /\ within t r k /\ ind' = where_ sep r.
Proof.
  intros R C. induction passes as [|n IH]; intros i s ind r ind' I W N H; [lia|]. cbn [bitor_loop] in H. destruct (wrap pd s) as [s'|] eqn:E; [|discriminate]. assert (W' := within_step pd t s s' i I R C W E).
  destruct (_ && _) eqn:B; [injection H as <- <-; exists (i + 1); split; [lia|]; split; [exact W'|reflexivity]|]. destruct n as [|n].
  - cbn [bitor_loop] in H. injection H as <- <-. exists (i + 1). split; [lia|]. split; [exact W'|reflexivity].
  - destruct (IH (i + 1) _ _ r ind' ltac:(lia) W' ltac:(lia) H) as (k & K & Wk & E'). exists k. split; [lia|]. split; [exact Wk|exact E'].
Qed.
Theorem C57_periodic : forall mn mx sep m pd t r ind, 0 <= rows t -> 0 <= cols t -> bitor mn mx sep m pd false t = inl (r, ind) ->
  exists k, 1 <= k <= Z.of_nat mx /\ forall i j, In (i, j) ind -> 0 <= i < rows t - k /\ 0 <= j < cols t - k /\
    (forall b, 0 <= b -> Z.testbit sep b = true -> exists p q, 0 <= p < rows t /\ 0 <= q < cols t /\ Z.testbit (at_ t p q) b = true) /\
    (forall b, 0 <= b -> block_has t m k i j b -> Z.testbit sep b = true).
Proof.
  intros mn mx sep m pd t r ind R C H. unfold bitor in H. destruct mx as [|mx]; [discriminate|]. destruct (mask_shape m t) as (Mr & Mc & _).
  assert (W0 : within (mask m t) (mask m t) 0).
  { split; [lia|]. split; [lia|]. intros i j b I J. split; [intros p q P Q B; replace i with p by lia; replace j with q by lia; exact B|intros B; exists i, j; auto]. }
  destruct (periodic_loop sep mn pd (mask m t) (S mx) ltac:(lia) ltac:(lia) 0 _ _ r ind ltac:(lia) W0 ltac:(lia) H) as (k & K & (W1 & W2 & W3) & E). exists k. split; [lia|]. intros i j I. rewrite E in I. apply in_where in I. destruct I as (I & J & S). split; [lia|]. split; [lia|]. subst sep. split.
  - intros b B Sb. destruct (proj2 (W3 i j b I J) Sb) as (p & q & P & Q & T). apply mask_bits in T; [|exact B]. exists p, q. split; [lia|]. split; [lia|]. apply T.
  - intros b B (p & q & P & Q & T & M). apply (proj1 (W3 i j b I J) p q P Q). apply mask_bits; [exact B|split; assumption].
Qed.
Print Assumptions C57_periodic.
(** One pass over a seam: the first and the last row are neighbours. *)
Theorem C57_seam : forall sep t j b, 2 <= rows t -> 2 <= cols t -> 0 <= j < cols t - 1 ->
  exists r ind, bitor 1 1 sep 0 (true, false) false t = inl (r, ind) /\
    (Z.testbit (at_ r 0 j) b = true <-> exists p q, (p = 0 \/ p = 1 \/ p = rows t - 1) /\ j <= q <= j + 1 /\ Z.testbit (at_ t p q) b = true).
Proof.
  intros sep t j b R C J. unfold bitor, bitor_loop, wrap. cbn [fst snd andb orb]. change (mask 0 t) with t. replace (rows t =? 0) with false by lia. cbn [orb].
  assert (Q : Z.testbit (at_ (halve (wrap_rows t)) 0 j) b = true <-> exists p q, (p = 0 \/ p = 1 \/ p = rows t - 1) /\ j <= q <= j + 1 /\ Z.testbit (at_ t p q) b = true).
  { cbn [halve wrap_rows at_]. change (0 + 1) with 1. change (0 =? 0) with true. change (1 =? 0) with false. cbn [orb]. assert (E : (1 =? rows t - 1) = true \/ (1 =? rows t - 1) = false) by (destruct (1 =? rows t - 1); auto).
    destruct E as [E|E]; rewrite E; rewrite !Z.lor_spec, !orb_true_iff; split.
    - intros H. replace (rows t - 1) with 1 in H by lia. intuition; first [exists 0, j; split; [lia|split; [lia|assumption]]|exists 0, (j + 1); split; [lia|split; [lia|assumption]]|exists 1, j; split; [lia|split; [lia|assumption]]|exists 1, (j + 1); split; [lia|split; [lia|assumption]]].
    - intros (p & q & P & Q & H). replace (rows t - 1) with 1 in * by lia. assert (Qc : q = j \/ q = j + 1) by lia. destruct Qc as [-> | ->], P as [-> |[-> | ->]]; tauto.
    - intros H. intuition; first [exists 0, j; split; [lia|split; [lia|assumption]]|exists 0, (j + 1); split; [lia|split; [lia|assumption]]|exists 1, j; split; [lia|split; [lia|assumption]]|exists 1, (j + 1); split; [lia|split; [lia|assumption]]|exists (rows t - 1), j; split; [lia|split; [lia|assumption]]|exists (rows t - 1), (j + 1); split; [lia|split; [lia|assumption]]].
    - intros (p & q & P & Q & H). assert (Qc : q = j \/ q = j + 1) by lia. destruct Qc as [-> | ->], P as [-> |[-> | ->]]; tauto. }
  cbn [Z.add Z.leb Z.compare Pos.compare Pos.compare_cont andb]. destruct (negb _); eexists; eexists; (split; [reflexivity|exact Q]).
Qed.
Print Assumptions C57_seam.

(** * refuted *)
(** Seeds whose boundaries come to a point, such as a sphere with its poles, always raise. *)
Theorem C57_pt_bnds_refuted : forall mn mx sep m pd t, (0 < mx)%nat -> 0 < rows t -> 0 < cols t -> bitor mn mx sep m pd true t = inr TypeError.
Proof.
  intros mn mx sep m pd t M R C. unfold bitor. destruct mx as [|mx]; [lia|]. destruct (mask_shape m t) as (Mr & Mc & _). cbn [bitor_loop]. unfold wrap. rewrite Mr, Mc. replace (rows t =? 0) with false by lia. replace (cols t =? 0) with false by lia. rewrite !andb_false_r. reflexivity.
Qed.
Print Assumptions C57_pt_bnds_refuted.
(** Without a mask and with a periodic axis the data of the caller are changed. *)
Theorem C57_in_place_refuted : forall mx t j, (0 < mx)%nat -> 0 < rows t -> Z.testbit (at_ t (rows t - 1) j) 3 = true -> Z.testbit (at_ t 0 j) 3 = false ->
  at_ (input_after mx 0 (true, false) t) 0 j <> at_ t 0 j /\ forall m, m <> 0 -> input_after mx m (true, false) t = t.
Proof.
  intros mx t j M R A B. split.
  - unfold input_after. destruct mx as [|mx]; [lia|]. unfold wrap. cbn [fst snd Z.eqb andb orb]. replace (rows t =? 0) with false by lia. cbn [orb wrap_rows at_ Z.eqb]. intros E. apply (f_equal (fun v => Z.testbit v 3)) in E. rewrite Z.lor_spec, A, B in E. discriminate E.
  - intros m Hm. unfold input_after. destruct (m =? 0) eqn:E; [lia|reflexivity].
Qed.
Print Assumptions C57_in_place_refuted.
(** Depth 0 is not accepted. *)
Theorem C57_no_pass_refuted : forall mn sep m pd pb t, bitor mn 0 sep m pd pb t = inr NameError.
Proof. reflexivity. Qed.
Print Assumptions C57_no_pass_refuted.

(** * the hypotheses can be met *)
Definition demo : topo := TP 5 4 (fun i j => if i <? 2 then (if j <? 2 then 1 else 2 + 16) else if j <? 2 then 4 else 8) (fun i => inject_Z (2 * i)) (fun j => inject_Z j).
Example C57_nonvacuous : exists r, bitor 1 10 15 15 (false, false) false demo = inl (r, [(1, 1)]) /\ (ax r 1 == 3)%Q /\ (ay r 1 == 3 # 2)%Q /\
  separator_block demo 15 15 1 1 1 /\ exists r', bitor 2 10 15 15 (false, false) false demo = inl (r', [(0, 0); (0, 1); (1, 0); (1, 1)]).
Proof.
  eexists. split; [reflexivity|]. split; [vm_compute; reflexivity|]. split; [vm_compute; reflexivity|]. split; [|eexists; reflexivity].
  change 1 with (Z.of_nat 1) at 1. apply where_block; [cbn; lia|cbn; lia|]. vm_compute. left. reflexivity.
Qed.
