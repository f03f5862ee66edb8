(** C16: candidate cells, roots on faces and reported nulls. *)
From Verif Require Import NullModel.
From Coq Require Import Lra Lia Arith.
Open Scope R_scope.

(** * specification *)
Definition lerp (t a b : R) : R := (1 - t) * a + t * b.
(* the trilinear interpolation of component d in cell (i, j, k) *)
Definition tri (f : fld) (i j k d : nat) (u v w : R) : R :=
  lerp u (lerp v (lerp w (f i j k d) (f i j (k + 1)%nat d)) (lerp w (f i (j + 1)%nat k d) (f i (j + 1)%nat (k + 1)%nat d)))
         (lerp v (lerp w (f (i + 1)%nat j k d) (f (i + 1)%nat j (k + 1)%nat d)) (lerp w (f (i + 1)%nat (j + 1)%nat k d) (f (i + 1)%nat (j + 1)%nat (k + 1)%nat d))).
Definition corner (f : fld) (i j k d : nat) (v : R) : Prop := exists p q r, (p <= 1)%nat /\ (q <= 1)%nat /\ (r <= 1)%nat /\ v = f (i + p)%nat (j + q)%nat (k + r)%nat d.
Definition in_cell (u v w : R) : Prop := 0 <= u <= 1 /\ 0 <= v <= 1 /\ 0 <= w <= 1.
Definition null_at (f : fld) (i j k : nat) (u v w : R) : Prop := forall d, (d < 3)%nat -> tri f i j k d u v w = 0.

(** * candidates *)
Definition chain (s : list bool) : bool := match s with [a; b; c; d; e; f; g; h] => xorb a b || xorb b c || xorb c d || xorb d e || xorb e f || xorb f g || xorb g h | _ => false end.
Lemma corners_case (P : R -> Prop) f i j k d : (forall v, corner f i j k d v -> P v) <->
  P (f i j k d) /\ P (f i j (k + 1)%nat d) /\ P (f i (j + 1)%nat k d) /\ P (f i (j + 1)%nat (k + 1)%nat d) /\ P (f (i + 1)%nat j k d) /\ P (f (i + 1)%nat j (k + 1)%nat d) /\ P (f (i + 1)%nat (j + 1)%nat k d) /\ P (f (i + 1)%nat (j + 1)%nat (k + 1)%nat d).
Proof.
  split.
  - intros H. assert (Z : forall n, n = (n + 0)%nat) by (intros; lia).
    repeat match goal with |- _ /\ _ => split end; apply H.
    + exists 0%nat, 0%nat, 0%nat. rewrite <- !Z. repeat split; auto with arith.
    + exists 0%nat, 0%nat, 1%nat. rewrite <- !Z. repeat split; auto with arith.
    + exists 0%nat, 1%nat, 0%nat. rewrite <- !Z. repeat split; auto with arith.
    + exists 0%nat, 1%nat, 1%nat. rewrite <- !Z. repeat split; auto with arith.
    + exists 1%nat, 0%nat, 0%nat. rewrite <- !Z. repeat split; auto with arith.
    + exists 1%nat, 0%nat, 1%nat. rewrite <- !Z. repeat split; auto with arith.
    + exists 1%nat, 1%nat, 0%nat. rewrite <- !Z. repeat split; auto with arith.
    + exists 1%nat, 1%nat, 1%nat. repeat split; auto with arith.
  - intros (A & B & C & D & E & F & G & I) v (p & q & r & P1 & Q1 & R1 & ->).
    destruct p as [|[|p]]; [| |lia]; (destruct q as [|[|q]]; [| |lia]); (destruct r as [|[|r]]; [| |lia]); rewrite ?Nat.add_0_r; assumption.
Qed.
Lemma sign_true b i j k d : sign b i j k d = true <-> 0 < b i j k d.
Proof. unfold sign. destruct (Rlt_dec 0 (b i j k d)); split; intros; auto; try discriminate; contradiction. Qed.
Lemma sign_false b i j k d : sign b i j k d = false <-> b i j k d <= 0.
Proof. unfold sign. destruct (Rlt_dec 0 (b i j k d)); split; intros; auto; try discriminate; lra. Qed.
Lemma not_different b i j k d : different b i j k d = false <-> (forall v, corner b i j k d v -> 0 < v) \/ (forall v, corner b i j k d v -> v <= 0).
Proof.
  rewrite !corners_case. unfold different. split.
  - intros H. destruct (sign b i j k d) eqn:S0, (sign b i j (k + 1)%nat d) eqn:S1, (sign b i (j + 1)%nat k d) eqn:S2, (sign b i (j + 1)%nat (k + 1)%nat d) eqn:S3, (sign b (i + 1)%nat j k d) eqn:S4, (sign b (i + 1)%nat j (k + 1)%nat d) eqn:S5, (sign b (i + 1)%nat (j + 1)%nat k d) eqn:S6, (sign b (i + 1)%nat (j + 1)%nat (k + 1)%nat d) eqn:S7; try discriminate H;
      [left; apply sign_true in S0, S1, S2, S3, S4, S5, S6, S7|right; apply sign_false in S0, S1, S2, S3, S4, S5, S6, S7]; tauto.
  - intros [(A & B & C & D & E & F & G & I)|(A & B & C & D & E & F & G & I)]; [apply sign_true in A, B, C, D, E, F, G, I|apply sign_false in A, B, C, D, E, F, G, I]; rewrite A, B, C, D, E, F, G, I; reflexivity.
Qed.
Lemma is_different b i j k d : different b i j k d = true <-> (exists v, corner b i j k d v /\ 0 < v) /\ (exists v, corner b i j k d v /\ v <= 0).
Proof.
  split.
  - intros H. assert (N : ~ ((forall v, corner b i j k d v -> 0 < v) \/ (forall v, corner b i j k d v -> v <= 0))) by (rewrite <- not_different; congruence). rewrite !corners_case in N.
    assert (Q : forall P : R -> Prop, (forall v, P v \/ ~ P v) -> ~ (forall v, corner b i j k d v -> P v) -> exists v, corner b i j k d v /\ ~ P v).
    { intros P Dec NP. rewrite corners_case in NP. assert (Z : forall n, n = (n + 0)%nat) by (intros; lia).
      destruct (Dec (b i j k d)) as [D0|D0]; [|eexists; split; [exists 0%nat, 0%nat, 0%nat; rewrite <- !Z; repeat split; auto with arith|exact D0]].
      destruct (Dec (b i j (k + 1)%nat d)) as [D1|D1]; [|eexists; split; [exists 0%nat, 0%nat, 1%nat; rewrite <- !Z; repeat split; auto with arith|exact D1]].
      destruct (Dec (b i (j + 1)%nat k d)) as [D2|D2]; [|eexists; split; [exists 0%nat, 1%nat, 0%nat; rewrite <- !Z; repeat split; auto with arith|exact D2]].
      destruct (Dec (b i (j + 1)%nat (k + 1)%nat d)) as [D3|D3]; [|eexists; split; [exists 0%nat, 1%nat, 1%nat; rewrite <- !Z; repeat split; auto with arith|exact D3]].
      destruct (Dec (b (i + 1)%nat j k d)) as [D4|D4]; [|eexists; split; [exists 1%nat, 0%nat, 0%nat; rewrite <- !Z; repeat split; auto with arith|exact D4]].
      destruct (Dec (b (i + 1)%nat j (k + 1)%nat d)) as [D5|D5]; [|eexists; split; [exists 1%nat, 0%nat, 1%nat; rewrite <- !Z; repeat split; auto with arith|exact D5]].
      destruct (Dec (b (i + 1)%nat (j + 1)%nat k d)) as [D6|D6]; [|eexists; split; [exists 1%nat, 1%nat, 0%nat; rewrite <- !Z; repeat split; auto with arith|exact D6]].
      destruct (Dec (b (i + 1)%nat (j + 1)%nat (k + 1)%nat d)) as [D7|D7]; [|eexists; split; [exists 1%nat, 1%nat, 1%nat; repeat split; auto with arith|exact D7]]. exfalso. apply NP. tauto. }
    split.
    + destruct (Q (fun v => v <= 0)) as (v & C & V); [intros v; lra|rewrite corners_case; tauto|]. exists v. split; [exact C|lra].
    + destruct (Q (fun v => 0 < v)) as (v & C & V); [intros v; lra|rewrite corners_case; tauto|]. exists v. split; [exact C|lra].
  - intros ((v & C & V) & (w & D & W)). destruct (different b i j k d) eqn:E; [reflexivity|]. apply not_different in E. destruct E as [E|E]; [specialize (E w D)|specialize (E v C)]; lra.
Qed.
Lemma in_candidates nx ny nz b x y z ib i j k : In (i, j, k) (candidates nx ny nz b x y z ib) <-> (i < nx - 1 /\ j < ny - 1 /\ k < nz - 1)%nat /\ candidate b x y z ib i j k = true.
Proof.
  unfold candidates. rewrite in_flat_map. split.
  - intros (i' & I & H). rewrite in_flat_map in H. destruct H as (j' & J & H). rewrite in_flat_map in H. destruct H as (k' & K & H). apply in_seq in I, J, K. destruct (candidate b x y z ib i' j' k') eqn:E; [|contradiction]. destruct H as [H|[]]. assert (i' = i /\ j' = j /\ k' = k) as (-> & -> & ->) by (split; [|split]; congruence). split; [lia|exact E].
  - intros ((I & J & K) & E). exists i. split; [apply in_seq; lia|]. apply in_flat_map. exists j. split; [apply in_seq; lia|]. apply in_flat_map. exists k. split; [apply in_seq; lia|]. rewrite E. left. reflexivity.
Qed.
(* the cells kept: outside ibound (by their lower node), and every component has a positive and a non-positive corner *)
Theorem C16_candidates : forall nx ny nz b x y z ib i j k, In (i, j, k) (candidates nx ny nz b x y z ib) <->
  (i + 1 < nx /\ j + 1 < ny /\ k + 1 < nz)%nat /\ ib ^ 2 <= x i ^ 2 + y j ^ 2 + z k ^ 2 /\
  forall d, (d < 3)%nat -> (exists v, corner b i j k d v /\ 0 < v) /\ exists v, corner b i j k d v /\ v <= 0.
Proof.
  intros. rewrite in_candidates. unfold candidate. destruct (Rlt_dec (x i ^ 2 + y j ^ 2 + z k ^ 2) (ib ^ 2)) as [L|L].
  - split; [intros (_ & F); discriminate F|intros (_ & F & _); lra].
  - rewrite !andb_true_iff, !is_different. split.
    + intros (A & (B & C) & D). split; [lia|]. split; [lra|]. intros [|[|[|d]]] Hd; [exact B|exact C|exact D|lia].
    + intros (A & B & C). split; [lia|]. split; [split|]; apply C; lia.
Qed.
Print Assumptions C16_candidates.
(* each of them once *)
Lemma nodup_flat {A B} (g : A -> list B) (key : B -> A) l : NoDup l -> (forall a b, In b (g a) -> key b = a) -> (forall a, NoDup (g a)) -> NoDup (flat_map g l).
Proof.
  intros N K G. induction N as [|a l I N IH]; [constructor|]. cbn [flat_map].
  assert (Q : forall m : list B, NoDup m -> (forall b, In b m -> ~ In b (flat_map g l)) -> NoDup (m ++ flat_map g l)).
  { induction m as [|b m IHm]; intros M D; [exact IH|]. cbn [app]. inversion M as [|b' m' M1 M2]; subst. constructor; [rewrite in_app_iff; intros [F|F]; [exact (M1 F)|exact (D b (or_introl eq_refl) F)]|]. apply IHm; [exact M2|intros c C; apply D; right; exact C]. }
  apply Q; [apply G|]. intros b Hb F. apply in_flat_map in F. destruct F as (a' & Ia & Ib). apply I. rewrite <- (K a b Hb), (K a' b Ib). exact Ia.
Qed.
Lemma candidates_nodup nx ny nz b x y z ib : NoDup (candidates nx ny nz b x y z ib).
Proof.
  unfold candidates. apply (nodup_flat _ (fun c => fst (fst c))); [apply seq_NoDup| |].
  - intros i c H. apply in_flat_map in H. destruct H as (j & _ & H). apply in_flat_map in H. destruct H as (k & _ & H). destruct (candidate b x y z ib i j k); [|contradiction]. destruct H as [<-|[]]. reflexivity.
  - intros i. apply (nodup_flat _ (fun c => snd (fst c))); [apply seq_NoDup| |].
    + intros j c H. apply in_flat_map in H. destruct H as (k & _ & H). destruct (candidate b x y z ib i j k); [|contradiction]. destruct H as [<-|[]]. reflexivity.
    + intros j. apply (nodup_flat _ snd); [apply seq_NoDup| |].
      * intros k c H. destruct (candidate b x y z ib i j k); [|contradiction]. destruct H as [<-|[]]. reflexivity.
      * intros k. destruct (candidate b x y z ib i j k); repeat constructor. intros [].
Qed.

Lemma lerp_pos t a b : 0 < t < 1 -> 0 < a -> 0 < b -> 0 < lerp t a b.
Proof. intros T A B. unfold lerp. apply Rplus_lt_0_compat; apply Rmult_lt_0_compat; lra. Qed.
Lemma lerp_np t a b : 0 < t < 1 -> a <= 0 -> b <= 0 -> lerp t a b <= 0 /\ (lerp t a b = 0 -> a = 0 /\ b = 0).
Proof.
  intros T A B. unfold lerp. assert (P : (1 - t) * a <= 0) by (rewrite <- (Rmult_0_r (1 - t)); apply Rmult_le_compat_l; lra). assert (Q : t * b <= 0) by (rewrite <- (Rmult_0_r t); apply Rmult_le_compat_l; lra). split; [lra|]. intros E.
  assert (E1 : (1 - t) * a = 0) by lra. assert (E2 : t * b = 0) by lra. apply Rmult_integral in E1, E2. lra.
Qed.
(* a null inside a cell outside ibound is not lost, unless a component is zero at all eight corners *)
Theorem C16_no_null_lost : forall nx ny nz b x y z ib i j k u v w,
  (i + 1 < nx /\ j + 1 < ny /\ k + 1 < nz)%nat -> ib ^ 2 <= x i ^ 2 + y j ^ 2 + z k ^ 2 -> 0 < u < 1 -> 0 < v < 1 -> 0 < w < 1 -> null_at b i j k u v w ->
  In (i, j, k) (candidates nx ny nz b x y z ib) \/ exists d, (d < 3)%nat /\ forall c, corner b i j k d c -> c = 0.
Proof.
  intros nx ny nz b x y z ib i j k u v w N Rr U V W Z.
  assert (Q : forall d, (d < 3)%nat -> different b i j k d = true \/ forall c, corner b i j k d c -> c = 0).
  { intros d Hd. destruct (different b i j k d) eqn:E; [left; reflexivity|right]. specialize (Z d Hd). unfold tri in Z. apply not_different in E. rewrite !corners_case in E. rewrite corners_case. destruct E as [(A & B & C & D & F & G & H & I)|(A & B & C & D & F & G & H & I)].
    - exfalso. apply Rlt_irrefl with 0. rewrite <- Z at 2. apply lerp_pos; [exact U| |]; (apply lerp_pos; [exact V| |]); apply lerp_pos; assumption.
    - destruct (lerp_np w _ _ W A B) as (a1 & a2). destruct (lerp_np w _ _ W C D) as (b1 & b2). destruct (lerp_np w _ _ W F G) as (c1 & c2). destruct (lerp_np w _ _ W H I) as (d1 & d2).
      destruct (lerp_np v _ _ V a1 b1) as (e1 & e2). destruct (lerp_np v _ _ V c1 d1) as (f1 & f2). destruct (lerp_np u _ _ U e1 f1) as (_ & g2). destruct (g2 Z) as (g3 & g4). destruct (e2 g3) as (h1 & h2). destruct (f2 g4) as (h3 & h4). destruct (a2 h1), (b2 h2), (c2 h3), (d2 h4). tauto. }
  destruct (Q 0%nat ltac:(lia)) as [A|A]; [|right; exists 0%nat; split; [lia|exact A]]. destruct (Q 1%nat ltac:(lia)) as [B|B]; [|right; exists 1%nat; split; [lia|exact B]]. destruct (Q 2%nat ltac:(lia)) as [C|C]; [|right; exists 2%nat; split; [lia|exact C]].
  left. apply C16_candidates. split; [exact N|]. split; [exact Rr|]. intros [|[|[|d]]] Hd; [apply is_different, A|apply is_different, B|apply is_different, C|lia].
Qed.
Print Assumptions C16_no_null_lost.

Definition sg (a : R) : bool := if Rlt_dec 0 a then true else false.
Lemma edge_zero a b : sg a = sg b \/ exists t, 0 <= t <= 1 /\ lerp t a b = 0.
Proof.
  unfold sg, lerp. destruct (Rlt_dec 0 a) as [A|A], (Rlt_dec 0 b) as [B|B]; try (left; reflexivity); right; exists (a / (a - b)).
  - assert (0 < / (a - b)) by (apply Rinv_0_lt_compat; lra). split; [|field; lra]. split; [apply Rmult_le_pos; lra|]. apply Rmult_le_reg_r with (a - b); [lra|]. unfold Rdiv. rewrite Rmult_assoc, Rinv_l by lra. lra.
  - assert (0 < / (b - a)) by (apply Rinv_0_lt_compat; lra). split; [|field; lra]. replace (a / (a - b)) with (- a / (b - a)) by (field; lra). split; [apply Rmult_le_pos; lra|]. apply Rmult_le_reg_r with (b - a); [lra|]. unfold Rdiv. rewrite Rmult_assoc, Rinv_l by lra. lra.
Qed.
Lemma cube_zero v0 v1 v2 v3 v4 v5 v6 v7 : chain [sg v0; sg v1; sg v2; sg v3; sg v4; sg v5; sg v6; sg v7] = true ->
  exists u v w, in_cell u v w /\ lerp u (lerp v (lerp w v0 v1) (lerp w v2 v3)) (lerp v (lerp w v4 v5) (lerp w v6 v7)) = 0.
Proof.
  intros H. cbn [chain] in H. unfold in_cell, lerp.
  destruct (edge_zero v0 v1) as [E1|(t & T & E)]; [|exists 0, 0, t; split; [lra|]; unfold lerp in E; lra].
  destruct (edge_zero v0 v2) as [E2|(t & T & E)]; [|exists 0, t, 0; split; [lra|]; unfold lerp in E; lra].
  destruct (edge_zero v0 v4) as [E3|(t & T & E)]; [|exists t, 0, 0; split; [lra|]; unfold lerp in E; lra].
  destruct (edge_zero v1 v3) as [E4|(t & T & E)]; [|exists 0, t, 1; split; [lra|]; unfold lerp in E; lra].
  destruct (edge_zero v2 v6) as [E5|(t & T & E)]; [|exists t, 1, 0; split; [lra|]; unfold lerp in E; lra].
  destruct (edge_zero v4 v5) as [E6|(t & T & E)]; [|exists 1, 0, t; split; [lra|]; unfold lerp in E; lra].
  destruct (edge_zero v3 v7) as [E7|(t & T & E)]; [|exists t, 1, 1; split; [lra|]; unfold lerp in E; lra].
  rewrite <- E7, <- E6, <- E5, <- E4, <- E3, <- E2, <- E1 in H. destruct (sg v0); discriminate H.
Qed.
(* in a candidate each component has a zero (not always a common one) *)
Theorem C16_candidate_zero : forall nx ny nz b x y z ib i j k d, In (i, j, k) (candidates nx ny nz b x y z ib) -> (d < 3)%nat ->
  exists u v w, in_cell u v w /\ tri b i j k d u v w = 0.
Proof.
  intros nx ny nz b x y z ib i j k d H Hd. apply C16_candidates in H. destruct H as (_ & _ & H). specialize (H d Hd). apply is_different in H. apply cube_zero. exact H.
Qed.
Print Assumptions C16_candidate_zero.

(** * roots on a face *)
Definition bil (a b c d x y : R) : R := a + b * x + c * y + d * x * y.
Lemma roots_x_sound a b c x : In x (roots_x a b c) -> a * x ^ 2 + b * x + c = 0.
Proof.
  unfold roots_x. destruct (Req_EM_T a 0) as [->|A].
  - destruct (Req_EM_T b 0) as [->|B]; [intros []|]. intros [<-|[]]. field. exact B.
  - destruct (Rlt_dec 0 (b ^ 2 - 4 * a * c)) as [D|D].
    + pose proof (sqrt_sqrt _ (Rlt_le _ _ D)) as S. set (q := sqrt _) in *. intros [<-|[<-|[]]].
      * replace (a * ((- b + q) / (2 * a)) ^ 2 + b * ((- b + q) / (2 * a)) + c) with ((q * q - (b ^ 2 - 4 * a * c)) / (4 * a)) by (field; exact A). rewrite S. field. exact A.
      * replace (a * ((- b - q) / (2 * a)) ^ 2 + b * ((- b - q) / (2 * a)) + c) with ((q * q - (b ^ 2 - 4 * a * c)) / (4 * a)) by (field; exact A). rewrite S. field. exact A.
    + destruct (Req_EM_T (b ^ 2 - 4 * a * c) 0) as [E|E]; [|intros []]. intros [<-|[]]. replace (a * (- b / (2 * a)) ^ 2 + b * (- b / (2 * a)) + c) with (- (b ^ 2 - 4 * a * c) / (4 * a)) by (field; exact A). rewrite E. field. exact A.
Qed.
Lemma roots_x_complete a b c x : ~ (a = 0 /\ b = 0) -> a * x ^ 2 + b * x + c = 0 -> In x (roots_x a b c).
Proof.
  intros N E. unfold roots_x. destruct (Req_EM_T a 0) as [->|A].
  - destruct (Req_EM_T b 0) as [->|B]; [exfalso; apply N; split; reflexivity|]. left. replace c with (- (b * x)) by lra. field. exact B.
  - assert (S : (2 * a * x + b) ^ 2 = b ^ 2 - 4 * a * c) by (replace c with (- (a * x ^ 2 + b * x)) by lra; ring). rewrite <- S. destruct (Rlt_dec 0 ((2 * a * x + b) ^ 2)) as [D|D].
    + rewrite <- Rsqr_pow2, sqrt_Rsqr_abs. unfold Rabs. destruct (Rcase_abs (2 * a * x + b)); [right; left|left]; field; exact A.
    + pose proof (pow2_ge_0 (2 * a * x + b)) as P. assert (Z : (2 * a * x + b) ^ 2 = 0) by lra. destruct (Req_EM_T ((2 * a * x + b) ^ 2) 0) as [_|F]; [|contradiction]. left. replace ((2 * a * x + b) ^ 2) with ((2 * a * x + b) * (2 * a * x + b)) in Z by ring. apply Rmult_integral in Z. assert (Z' : b = - (2 * a * x)) by lra. rewrite Z'. field. exact A.
Qed.
Lemma keep_in a1 b1 c1 d1 x u v : In (u, v) (keep_root a1 b1 c1 d1 x) <-> u = x /\ c1 + d1 * x <> 0 /\ v = - (a1 + b1 * x) / (c1 + d1 * x) /\ 0 <= x <= 1 /\ 0 < v < 1.
Proof.
  unfold keep_root. destruct (Req_EM_T (c1 + d1 * x) 0) as [E|E]; [split; [intros []|intros (_ & F & _); contradiction]|]. set (y := - (a1 + b1 * x) / (c1 + d1 * x)).
  destruct (Rle_dec 0 x), (Rle_dec x 1), (Rlt_dec 0 y), (Rlt_dec y 1); cbn [In]; split; try (intros []; fail); try (intros (_ & _ & -> & F & G); lra).
  - intros [F|[]]. assert (x = u /\ y = v) as (<- & <-) by (split; congruence). repeat split; auto.
  - intros (-> & _ & -> & _ & _). left. reflexivity.
Qed.
Lemma root_cond a1 b1 c1 d1 a2 b2 c2 d2 u v : In (u, v) (find_roots_face a1 b1 c1 d1 a2 b2 c2 d2) -> bil a1 b1 c1 d1 u v = 0 /\ bil a2 b2 c2 d2 u v = 0 /\ 0 <= u <= 1 /\ 0 < v < 1 /\ c1 + d1 * u <> 0.
Proof.
  unfold find_roots_face. rewrite in_flat_map. intros (x & I & K). apply keep_in in K. destruct K as (-> & N & E & X & Y). apply roots_x_sound in I. unfold bil.
  assert (F1 : a1 + b1 * x + c1 * v + d1 * x * v = 0) by (rewrite E; field; exact N). split; [exact F1|]. split; [|auto].
  apply Rmult_eq_reg_l with (c1 + d1 * x); [|exact N]. rewrite Rmult_0_r, E.
  replace ((c1 + d1 * x) * (a2 + b2 * x + c2 * (- (a1 + b1 * x) / (c1 + d1 * x)) + d2 * x * (- (a1 + b1 * x) / (c1 + d1 * x)))) with (- ((b1 * d2 - d1 * b2) * x ^ 2 + ((a1 * d2 - d1 * a2) + (b1 * c2 - c1 * b2)) * x + (a1 * c2 - c1 * a2))) by (field; exact N). rewrite I. ring.
Qed.
(* a reported root is on the face and solves both equations *)
Theorem C16_face_sound : forall a1 b1 c1 d1 a2 b2 c2 d2 x y, In (x, y) (find_roots_face a1 b1 c1 d1 a2 b2 c2 d2) ->
  a1 + b1 * x + c1 * y + d1 * x * y = 0 /\ a2 + b2 * x + c2 * y + d2 * x * y = 0 /\ 0 <= x <= 1 /\ 0 < y < 1.
Proof. intros. apply root_cond in H. unfold bil in H. tauto. Qed.
Print Assumptions C16_face_sound.
(* every root on the face is found, except where the first function does not depend on y, or the curves have a common branch *)
Theorem C16_face_complete : forall a1 b1 c1 d1 a2 b2 c2 d2 x y, a1 + b1 * x + c1 * y + d1 * x * y = 0 -> a2 + b2 * x + c2 * y + d2 * x * y = 0 -> 0 <= x <= 1 -> 0 < y < 1 ->
  c1 + d1 * x <> 0 -> ~ (b1 * d2 = d1 * b2 /\ (a1 * d2 - d1 * a2) + (b1 * c2 - c1 * b2) = 0) -> In (x, y) (find_roots_face a1 b1 c1 d1 a2 b2 c2 d2).
Proof.
  intros a1 b1 c1 d1 a2 b2 c2 d2 x y E1 E2 X Y N M. unfold find_roots_face. apply in_flat_map. exists x. split.
  - apply roots_x_complete; [intros (A & B); apply M; split; lra|]. replace a1 with (- (b1 * x + c1 * y + d1 * x * y)) by lra. replace a2 with (- (b2 * x + c2 * y + d2 * x * y)) by lra. ring.
  - apply keep_in. split; [reflexivity|]. split; [exact N|]. split; [|split; assumption]. replace a1 with (- (b1 * x + c1 * y + d1 * x * y)) by lra. field. exact N.
Qed.
Print Assumptions C16_face_complete.
(* each root once *)
Lemma roots_x_nodup a b c : NoDup (roots_x a b c).
Proof.
  unfold roots_x. destruct (Req_EM_T a 0); [destruct (Req_EM_T b 0); repeat constructor; intros []|]. destruct (Rlt_dec 0 (b ^ 2 - 4 * a * c)) as [D|D]; [|destruct (Req_EM_T (b ^ 2 - 4 * a * c) 0); repeat constructor; intros []].
  pose proof (sqrt_lt_R0 _ D) as S. set (q := sqrt _) in *. repeat constructor; [|intros []]. intros [E|[]]. assert (Q : q = a * ((- b + q) / (2 * a) - (- b - q) / (2 * a))) by (field; assumption). rewrite E in Q. lra.
Qed.
Theorem C16_face_once : forall a1 b1 c1 d1 a2 b2 c2 d2, NoDup (find_roots_face a1 b1 c1 d1 a2 b2 c2 d2) /\ (length (find_roots_face a1 b1 c1 d1 a2 b2 c2 d2) <= 2)%nat.
Proof.
  intros. unfold find_roots_face. split.
  - apply (nodup_flat _ fst); [apply roots_x_nodup| |].
    + intros x (u, v) H. apply keep_in in H. tauto.
    + intros x. unfold keep_root. repeat match goal with |- context [if ?c then _ else _] => destruct c end; repeat constructor; intros [].
  - assert (K : forall x, (length (keep_root a1 b1 c1 d1 x) <= 1)%nat) by (intros x; unfold keep_root; repeat match goal with |- context [if ?c then _ else _] => destruct c end; cbn; lia).
    unfold roots_x. repeat match goal with |- context [if ?c then _ else _] => destruct c end; cbn [flat_map length]; rewrite ?app_length; cbn [length]; repeat match goal with |- context [length (keep_root a1 b1 c1 d1 ?x)] => pose proof (K x); generalize dependent (length (keep_root a1 b1 c1 d1 x)); intros end; lia.
Qed.
Print Assumptions C16_face_once.
(* where the first function does not depend on y all roots are lost *)
Theorem C16_face_refuted : forall x0 y0, 0 < x0 < 1 -> 0 < y0 < 1 ->
  let f1 := fun x y : R => x - x0 in let f2 := fun x y : R => y - y0 in
  f1 x0 y0 = 0 /\ f2 x0 y0 = 0 /\ find_roots_face (- x0) 1 0 0 (- y0) 0 1 0 = [].
Proof.
  intros x0 y0 X Y. cbv zeta. split; [ring|]. split; [ring|]. destruct (find_roots_face (- x0) 1 0 0 (- y0) 0 1 0) as [|(u, v) l] eqn:E; [reflexivity|]. exfalso. assert (I : In (u, v) (find_roots_face (- x0) 1 0 0 (- y0) 0 1 0)) by (rewrite E; left; reflexivity). apply root_cond in I. destruct I as (_ & _ & _ & _ & N). apply N. ring.
Qed.
Print Assumptions C16_face_refuted.

(** * faces of a cell *)
(* the point of the cell for (u, v) on face i: z = 0, z = 1, x = 0, x = 1, y = 0, y = 1 *)
Definition face_point (i : nat) (u v : R) : R * R * R :=
  match i with 0%nat => (u, v, 0) | 1%nat => (u, v, 1) | 2%nat => (0, u, v) | 3%nat => (1, u, v) | 4%nat => (v, 0, u) | _ => (v, 1, u) end.
Definition tri3 (f : fld) (ix iy iz c : nat) (p : R * R * R) : R := tri f ix iy iz c (fst (fst p)) (snd (fst p)) (snd p).
Lemma coef_face f ix iy iz i c u v : (2 <= i <= 5)%nat -> let '(a, b, c', d) := coef f ix iy iz i c in bil a b c' d u v = tri3 f ix iy iz c (face_point i u v).
Proof.
  intros H. destruct i as [|[|[|[|[|[|i]]]]]]; try lia; cbn [coef oa ob oc od nth at_off face_point]; rewrite ?Nat.add_0_r; unfold bil, tri3, tri, lerp; cbn [fst snd]; ring.
Qed.
Lemma in_face_roots f ix iy iz i c1 c2 c3 u v w : In (u, v, w) (face_roots f ix iy iz i c1 c2 c3) <->
  let '(a1, b1, k1, d1) := coef f ix iy iz i c1 in let '(a2, b2, k2, d2) := coef f ix iy iz i c2 in let '(a3, b3, k3, d3) := coef f ix iy iz i c3 in
  In (u, v) (find_roots_face a1 b1 k1 d1 a2 b2 k2 d2) /\ w = bil a3 b3 k3 d3 u v.
Proof.
  unfold face_roots. destruct (coef f ix iy iz i c1) as (((a1 & b1) & k1) & d1). destruct (coef f ix iy iz i c2) as (((a2 & b2) & k2) & d2). destruct (coef f ix iy iz i c3) as (((a3 & b3) & k3) & d3). rewrite in_map_iff. split.
  - intros ((u', v') & E & I). cbn [fst snd] in E. assert (u' = u /\ v' = v /\ a3 + b3 * u' + k3 * v' + d3 * u' * v' = w) as (-> & -> & <-) by (repeat split; congruence). split; [exact I|reflexivity].
  - intros (I & ->). exists (u, v). split; [reflexivity|exact I].
Qed.
(* on the faces across x and y the roots are zeros of the interpolated field, with the value of the third component *)
Theorem C16_faces : forall f ix iy iz i c1 c2 c3 u v w, (2 <= i <= 5)%nat -> In (u, v, w) (face_roots f ix iy iz i c1 c2 c3) ->
  let p := face_point i u v in tri3 f ix iy iz c1 p = 0 /\ tri3 f ix iy iz c2 p = 0 /\ tri3 f ix iy iz c3 p = w /\ 0 <= u <= 1 /\ 0 < v < 1.
Proof.
  intros f ix iy iz i c1 c2 c3 u v w H I. apply in_face_roots in I. pose proof (coef_face f ix iy iz i c1 u v H) as A. pose proof (coef_face f ix iy iz i c2 u v H) as B. pose proof (coef_face f ix iy iz i c3 u v H) as C.
  destruct (coef f ix iy iz i c1) as (((a1 & b1) & k1) & d1). destruct (coef f ix iy iz i c2) as (((a2 & b2) & k2) & d2). destruct (coef f ix iy iz i c3) as (((a3 & b3) & k3) & d3). destruct I as (I & W). apply root_cond in I. cbv zeta. rewrite <- A, <- B, <- C. intuition.
Qed.
Print Assumptions C16_faces.
(* on the faces across z the fourth corner is the second one again *)
Theorem C16_z_faces_refuted : forall f ix iy iz i c u v, (i <= 1)%nat -> let '(a, b, c', d) := coef f ix iy iz i c in
  bil a b c' d u v = tri3 f ix iy iz c (face_point i u v) + u * v * (f (ix + 1)%nat iy (iz + i)%nat c - f (ix + 1)%nat (iy + 1)%nat (iz + i)%nat c).
Proof.
  intros f ix iy iz i c u v H. destruct i as [|[|i]]; [| |lia]; cbn [coef oa ob oc od nth at_off face_point]; rewrite ?Nat.add_0_r; unfold bil, tri3, tri, lerp; cbn [fst snd]; ring.
Qed.
Print Assumptions C16_z_faces_refuted.

(** * reported cells *)
Lemma count1_all i : forall l s, let '(all, pos, have) := fold_left (count1 i) l s in
  all = (fst (fst s) + length l)%nat /\ (snd s = true -> have = true) /\ (Nat.even i = true -> (exists r, In r l /\ snd r = 0) -> have = true) /\
  (have = true -> snd s = true \/ (Nat.even i = true /\ exists r, In r l /\ snd r = 0)).
Proof.
  induction l as [|r l IH]; intros s.
  - cbn [fold_left length]. destruct s as ((all & pos) & have). cbn [fst snd]. repeat split; auto with arith. intros _ (r & [] & _).
  - cbn [fold_left length]. specialize (IH (count1 i s r)). destruct (fold_left (count1 i) l (count1 i s r)) as ((all & pos) & have). destruct IH as (A & B & C & D). destruct s as ((all0 & pos0) & have0). unfold count1 in *. cbn [fst snd] in *. destruct (Rlt_dec 0 (snd r)) as [L|L]; [|destruct (Req_EM_T (snd r) 0) as [Z|Z]]; cbn [fst snd] in *.
    + split; [lia|]. split; [exact B|]. split; [intros Ev (q & [<-|I] & Q); [lra|apply C; eauto]|]. intros Hh. destruct (D Hh) as [F|(F & q & I & Q)]; [left; exact F|right; split; [exact F|exists q; split; [right; exact I|exact Q]]].
    + split; [lia|]. split; [intros ->; apply B; destruct (Nat.even i); reflexivity|]. split; [intros Ev _; apply B; rewrite Ev; reflexivity|]. intros Hh. destruct (D Hh) as [F|(F & q & I & Q)]; [|right; split; [exact F|exists q; split; [right; exact I|exact Q]]]. destruct (Nat.even i) eqn:Ev; [right; split; [reflexivity|exists r; split; [left; reflexivity|exact Z]]|left; exact F].
    + split; [lia|]. split; [exact B|]. split; [intros Ev (q & [<-|I] & Q); [lra|apply C; eauto]|]. intros Hh. destruct (D Hh) as [F|(F & q & I & Q)]; [left; exact F|right; split; [exact F|exists q; split; [right; exact I|exact Q]]].
Qed.
Lemma count_have f ix iy iz c1 c2 c3 h i u v : (i < 6)%nat -> Nat.even i = true -> In (u, v, 0) (face_roots f ix iy iz i c1 c2 c3) -> snd (count_roots f ix iy iz c1 c2 c3 h) = true.
Proof.
  intros Hi Ev I. unfold count_roots. assert (J : In i (seq 0 6)) by (apply in_seq; lia). generalize (0%nat, 0%nat, h). induction (seq 0 6) as [|j l IH]; [contradiction|]. intros s. cbn [fold_left]. destruct J as [->|J].
  - pose proof (count1_all i (face_roots f ix iy iz i c1 c2 c3) s) as P. destruct (fold_left (count1 i) (face_roots f ix iy iz i c1 c2 c3) s) as ((all & pos) & have). destruct P as (_ & _ & P & _). specialize (P Ev (ex_intro _ _ (conj I eq_refl))). subst have. clear. generalize (all, pos, true) (eq_refl : snd (all, pos, true) = true). induction l as [|j l IH]; intros t T; [exact T|]. cbn [fold_left]. apply IH. pose proof (count1_all j (face_roots f ix iy iz j c1 c2 c3) t) as P. destruct (fold_left (count1 j) (face_roots f ix iy iz j c1 c2 c3) t) as ((a & b) & h'). cbn [snd]. destruct P as (_ & P & _). exact (P T).
  - apply IH, J.
Qed.
Lemma orders_have f ix iy iz c1 c2 c3 i u v : In (c1, c2, c3) [(0, 1, 2); (1, 2, 0); (2, 0, 1)]%nat -> (i < 6)%nat -> Nat.even i = true -> In (u, v, 0) (face_roots f ix iy iz i c1 c2 c3) -> have_null f ix iy iz = true.
Proof.
  unfold have_null. intros P Hi Ev I. generalize false. induction [(0, 1, 2); (1, 2, 0); (2, 0, 1)]%nat as [|((k1 & k2) & k3) l IH]; [contradiction|]. intros h. cbn [orders]. pose proof (count_have f ix iy iz k1 k2 k3 h i u v Hi Ev) as Q. destruct (count_roots f ix iy iz k1 k2 k3 h) as ((all & pos) & have). cbn [snd] in Q. destruct P as [P|P].
  - assert (k1 = c1 /\ k2 = c2 /\ k3 = c3) as (-> & -> & ->) by (repeat split; congruence). rewrite (Q I), orb_true_r. reflexivity.
  - destruct ((Nat.odd pos && Nat.even all) || have); [reflexivity|apply IH, P].
Qed.
(* a null of the interpolated field on the lower x or y face is reported unless it is degenerate in the way of C16_face_complete *)
Theorem C16_null_on_face : forall f ix iy iz i c1 c2 c3 u v, i = 2%nat \/ i = 4%nat -> In (c1, c2, c3) [(0, 1, 2); (1, 2, 0); (2, 0, 1)]%nat -> 0 <= u <= 1 -> 0 < v < 1 ->
  (forall c, (c < 3)%nat -> tri3 f ix iy iz c (face_point i u v) = 0) ->
  (let '(a1, b1, k1, d1) := coef f ix iy iz i c1 in let '(a2, b2, k2, d2) := coef f ix iy iz i c2 in
   k1 + d1 * u <> 0 /\ ~ (b1 * d2 = d1 * b2 /\ (a1 * d2 - d1 * a2) + (b1 * k2 - k1 * b2) = 0)) -> have_null f ix iy iz = true.
Proof.
  intros f ix iy iz i c1 c2 c3 u v Hi P U V Z N. assert (B : (c1 < 3 /\ c2 < 3 /\ c3 < 3)%nat) by (destruct P as [P|[P|[P|[]]]]; injection P; lia). assert (Hi' : (2 <= i <= 5)%nat) by lia.
  apply (orders_have f ix iy iz c1 c2 c3 i u v P); [lia|destruct Hi; subst; reflexivity|]. apply in_face_roots.
  pose proof (coef_face f ix iy iz i c1 u v Hi') as E1. pose proof (coef_face f ix iy iz i c2 u v Hi') as E2. pose proof (coef_face f ix iy iz i c3 u v Hi') as E3. rewrite Z in E1, E2, E3 by lia.
  destruct (coef f ix iy iz i c1) as (((a1 & b1) & k1) & d1). destruct (coef f ix iy iz i c2) as (((a2 & b2) & k2) & d2). destruct (coef f ix iy iz i c3) as (((a3 & b3) & k3) & d3). split; [|symmetry; exact E3]. apply C16_face_complete; try assumption; apply N.
Qed.
Print Assumptions C16_null_on_face.
(* the cells and points given to the user *)
Theorem C16_reported : forall nx ny nz f x y z ib l, find_nulls nx ny nz f x y z ib = inr l ->
  NoDup l /\ l <> [] /\ forall i j k p, In ((i, j, k), p) l <-> In (i, j, k) (candidates nx ny nz f x y z ib) /\ have_null f i j k = true /\ p = (x i, y j, z k).
Proof.
  intros nx ny nz f x y z ib l H. unfold find_nulls in H. pose proof (candidates_nodup nx ny nz f x y z ib) as ND. destruct (candidates nx ny nz f x y z ib) as [|c0 cs] eqn:E; [discriminate H|]. set (all := c0 :: cs) in *. clearbody all.
  assert (Nf := NoDup_filter (fun c => let '(i, j, k) := c in have_null f i j k) ND). pose proof (fun c => filter_In (fun c => let '(i, j, k) := c in have_null f i j k) c all) as Fi. destruct (filter _ all) as [|n0 ns]; [discriminate H|]. set (nulls := n0 :: ns) in *. assert (Ne : nulls <> []) by discriminate. clearbody nulls.
  assert (Hl : l = map (fun c => let '(i, j, k) := c in ((i, j, k), (x i, y j, z k))) nulls) by congruence. subst l. split; [|split].
  - clear - Nf. induction Nf as [|((i & j) & k) m I N IH]; [constructor|]. cbn [map]. constructor; [|exact IH]. intros F. apply in_map_iff in F. destruct F as (((i' & j') & k') & Q & J). assert ((i', j', k') = (i, j, k)) by congruence. congruence.
  - destruct nulls; [contradiction|discriminate].
  - intros i j k p. rewrite in_map_iff. split.
    + intros (((i' & j') & k') & Q & J). apply Fi in J. assert (i' = i /\ j' = j /\ k' = k /\ p = (x i', y j', z k')) as (-> & -> & -> & ->) by (repeat split; congruence). tauto.
    + intros (A & B & ->). exists (i, j, k). split; [reflexivity|]. apply Fi. tauto.
Qed.
Print Assumptions C16_reported.
(* a field without candidates is an error, not an empty result; so is one whose candidates are all rejected *)
Theorem C16_none_refuted : forall nx ny nz f x y z ib, (forall i j k, In (i, j, k) (candidates nx ny nz f x y z ib) -> have_null f i j k = false) -> exists e, find_nulls nx ny nz f x y z ib = inl e.
Proof.
  intros nx ny nz f x y z ib H. unfold find_nulls. destruct (candidates nx ny nz f x y z ib) as [|c0 cs]; [eexists; reflexivity|]. set (all := c0 :: cs) in *. assert (E : filter (fun c => let '(i, j, k) := c in have_null f i j k) all = []).
  { clearbody all. induction all as [|((i & j) & k) m IH]; [reflexivity|]. cbn [filter]. rewrite (H i j k (or_introl eq_refl)). apply IH. intros i' j' k' I. apply H. right. exact I. }
  rewrite E. eexists. reflexivity.
Qed.
Print Assumptions C16_none_refuted.

(** ** the simplest null is not reported *)
Lemma no_roots a1 b1 c1 d1 a2 b2 c2 d2 : (forall x y, bil a1 b1 c1 d1 x y = 0 -> bil a2 b2 c2 d2 x y = 0 -> 0 <= x <= 1 -> 0 < y < 1 -> c1 + d1 * x <> 0 -> False) -> find_roots_face a1 b1 c1 d1 a2 b2 c2 d2 = [].
Proof. intros H. destruct (find_roots_face a1 b1 c1 d1 a2 b2 c2 d2) as [|(u, v) l] eqn:E; [reflexivity|]. exfalso. assert (I : In (u, v) (find_roots_face a1 b1 c1 d1 a2 b2 c2 d2)) by (rewrite E; left; reflexivity). apply root_cond in I. destruct I as (A & B & C & D & F). exact (H u v A B C D F). Qed.
Definition plain (sx sy sz xn yn zn : R) : fld := fun i j k d => match d with 0%nat => sx * (INR i - xn) | 1%nat => sy * (INR j - yn) | _ => sz * (INR k - zn) end.
Lemma plain_roots sx sy sz xn yn zn i c1 c2 c3 : sx <> 0 -> sy <> 0 -> sz <> 0 -> 0 < xn < 1 -> 0 < yn < 1 -> 0 < zn < 1 ->
  In (c1, c2, c3) [(0, 1, 2); (1, 2, 0); (2, 0, 1)]%nat -> (i < 6)%nat -> face_roots (plain sx sy sz xn yn zn) 0 0 0 i c1 c2 c3 = [].
Proof.
  intros Sx Sy Sz X Y Z P Hi. unfold face_roots.
  assert (K : forall s t, s <> 0 -> t <> 0 -> s * t <> 0) by (intros s t S T Q; apply Rmult_integral in Q; tauto).
  destruct P as [P|[P|[P|[]]]]; injection P as <- <- <-; (destruct i as [|[|[|[|[|[|i]]]]]]; [| | | | | |lia]); cbn [coef oa ob oc od nth at_off plain Nat.add INR];
    (rewrite no_roots; [reflexivity|]); unfold bil; intros x y E1 E2 _ _ N.
  all: try (apply N; ring).
  all: match goal with
       | H : ?e = 0 |- False => (assert (Q : sx * xn = 0) by lra; apply (K sx xn); [exact Sx|lra|exact Q]) || (assert (Q : sy * yn = 0) by lra; apply (K sy yn); [exact Sy|lra|exact Q]) || (assert (Q : sz * zn = 0) by lra; apply (K sz zn); [exact Sz|lra|exact Q])
                    || (assert (Q : sx * (1 - xn) = 0) by lra; apply (K sx (1 - xn)); [exact Sx|lra|exact Q]) || (assert (Q : sy * (1 - yn) = 0) by lra; apply (K sy (1 - yn)); [exact Sy|lra|exact Q]) || (assert (Q : sz * (1 - zn) = 0) by lra; apply (K sz (1 - zn)); [exact Sz|lra|exact Q])
       end.
Qed.
Lemma plain_null sx sy sz xn yn zn : sx <> 0 -> sy <> 0 -> sz <> 0 -> 0 < xn < 1 -> 0 < yn < 1 -> 0 < zn < 1 -> have_null (plain sx sy sz xn yn zn) 0 0 0 = false.
Proof.
  intros Sx Sy Sz X Y Z. assert (C : forall c1 c2 c3, In (c1, c2, c3) [(0, 1, 2); (1, 2, 0); (2, 0, 1)]%nat -> count_roots (plain sx sy sz xn yn zn) 0 0 0 c1 c2 c3 false = (0%nat, 0%nat, false)).
  { intros c1 c2 c3 P. unfold count_roots. cbn [seq fold_left]. rewrite !(plain_roots sx sy sz xn yn zn _ c1 c2 c3 Sx Sy Sz X Y Z P) by lia. reflexivity. }
  unfold have_null. cbn [orders]. rewrite !C by (cbn; tauto). reflexivity.
Qed.
Lemma plain_different sx sy sz xn yn zn d : sx <> 0 -> sy <> 0 -> sz <> 0 -> 0 < xn < 1 -> 0 < yn < 1 -> 0 < zn < 1 -> (d < 3)%nat -> different (plain sx sy sz xn yn zn) 0 0 0 d = true.
Proof.
  intros Sx Sy Sz X Y Z Hd. assert (K : forall s t, s <> 0 -> 0 < t < 1 -> (s * (0 - t) < 0 /\ 0 < s * (1 - t)) \/ (0 < s * (0 - t) /\ s * (1 - t) < 0)).
  { intros s t S T. destruct (Rtotal_order s 0) as [L|[L|L]]; [right|contradiction|left].
    - split; [replace (s * (0 - t)) with (- s * t) by ring; apply Rmult_lt_0_compat; lra|]. assert (0 < - s * (1 - t)) by (apply Rmult_lt_0_compat; lra). lra.
    - split; [assert (0 < s * t) by (apply Rmult_lt_0_compat; lra); lra|apply Rmult_lt_0_compat; lra]. }
  apply is_different. destruct d as [|[|[|d]]]; [destruct (K sx xn Sx X) as [(A & B)|(A & B)]|destruct (K sy yn Sy Y) as [(A & B)|(A & B)]|destruct (K sz zn Sz Z) as [(A & B)|(A & B)]|lia].
  - split; [exists (sx * (1 - xn)); split; [exists 1%nat, 0%nat, 0%nat; repeat split; auto with arith|lra]|exists (sx * (0 - xn)); split; [exists 0%nat, 0%nat, 0%nat; repeat split; auto with arith|lra]].
  - split; [exists (sx * (0 - xn)); split; [exists 0%nat, 0%nat, 0%nat; repeat split; auto with arith|lra]|exists (sx * (1 - xn)); split; [exists 1%nat, 0%nat, 0%nat; repeat split; auto with arith|lra]].
  - split; [exists (sy * (1 - yn)); split; [exists 0%nat, 1%nat, 0%nat; repeat split; auto with arith|lra]|exists (sy * (0 - yn)); split; [exists 0%nat, 0%nat, 0%nat; repeat split; auto with arith|lra]].
  - split; [exists (sy * (0 - yn)); split; [exists 0%nat, 0%nat, 0%nat; repeat split; auto with arith|lra]|exists (sy * (1 - yn)); split; [exists 0%nat, 1%nat, 0%nat; repeat split; auto with arith|lra]].
  - split; [exists (sz * (1 - zn)); split; [exists 0%nat, 0%nat, 1%nat; repeat split; auto with arith|lra]|exists (sz * (0 - zn)); split; [exists 0%nat, 0%nat, 0%nat; repeat split; auto with arith|lra]].
  - split; [exists (sz * (0 - zn)); split; [exists 0%nat, 0%nat, 0%nat; repeat split; auto with arith|lra]|exists (sz * (1 - zn)); split; [exists 0%nat, 0%nat, 1%nat; repeat split; auto with arith|lra]].
Qed.
(* B = (sx (x - xn), sy (y - yn), sz (z - zn)) on the unit cell: a null, the cell is a candidate, and find_nulls raises an error *)
Theorem C16_missed_refuted : forall sx sy sz xn yn zn, sx <> 0 -> sy <> 0 -> sz <> 0 -> 0 < xn < 1 -> 0 < yn < 1 -> 0 < zn < 1 ->
  let b := plain sx sy sz xn yn zn in
  null_at b 0 0 0 xn yn zn /\ In (0, 0, 0)%nat (candidates 2 2 2 b INR INR INR 0) /\ find_nulls 2 2 2 b INR INR INR 0 = inl IndexError.
Proof.
  intros sx sy sz xn yn zn Sx Sy Sz X Y Z. cbv zeta. assert (C : candidate (plain sx sy sz xn yn zn) INR INR INR 0 0 0 0 = true).
  { unfold candidate. destruct (Rlt_dec _ _) as [L|L]; [cbn [INR pow] in L; lra|]. rewrite !plain_different by (assumption || lia). reflexivity. }
  assert (Cs : candidates 2 2 2 (plain sx sy sz xn yn zn) INR INR INR 0 = [(0, 0, 0)%nat]) by (unfold candidates; cbn [Nat.sub seq flat_map]; rewrite C; reflexivity).
  split; [|split].
  - intros [|[|[|d]]] Hd; [| | |lia]; unfold tri, lerp; cbn [plain Nat.add INR]; ring.
  - rewrite Cs. left. reflexivity.
  - unfold find_nulls. rewrite Cs. cbn [filter]. rewrite plain_null by assumption. reflexivity.
Qed.
Print Assumptions C16_missed_refuted.

(** ** a cell without a null that is reported *)
Definition skew : fld := fun i j k d => match d with 0%nat => INR j - 1 / 4 | 1%nat => INR i - 1 / 2 | _ => INR i * INR j end.
Theorem C16_false_refuted : (forall u v w, ~ null_at skew 0 0 0 u v w) /\ find_nulls 2 2 2 skew INR INR INR 0 = inr [((0, 0, 0)%nat, (INR 0, INR 0, INR 0))].
Proof.
  split.
  - intros u v w N. assert (A := N 0%nat ltac:(lia)). assert (B := N 1%nat ltac:(lia)). assert (C := N 2%nat ltac:(lia)). unfold tri, lerp in A, B, C. cbn [skew Nat.add INR] in A, B, C.
    assert (V : v = 1 / 4) by lra. assert (U : u = 1 / 2) by lra. subst. lra.
  - assert (H : have_null skew 0 0 0 = true).
    { apply (orders_have skew 0 0 0 0 1 2 0 (1 / 2) (1 / 2)); [left; reflexivity|lia|reflexivity|]. apply in_face_roots. cbn [coef oa ob oc od nth at_off skew Nat.add INR]. split; [|unfold bil; lra]. apply C16_face_complete; lra. }
    assert (C : candidate skew INR INR INR 0 0 0 0 = true).
    { unfold candidate. destruct (Rlt_dec _ _) as [L|L]; [cbn [INR pow] in L; lra|]. assert (D : forall d, (d < 3)%nat -> different skew 0 0 0 d = true).
      { intros d Hd. apply is_different. split.
        - eexists. split; [exists 1%nat, 1%nat, 0%nat; repeat split; auto with arith|]. destruct d as [|[|[|d]]]; [| | |lia]; cbn [skew Nat.add INR]; lra.
        - eexists. split; [exists 0%nat, 0%nat, 0%nat; repeat split; auto with arith|]. destruct d as [|[|[|d]]]; [| | |lia]; cbn [skew Nat.add INR]; lra. }
      rewrite !D by lia. reflexivity. }
    unfold find_nulls, candidates. cbn [Nat.sub seq flat_map]. rewrite C. cbn [app filter]. rewrite H. reflexivity.
Qed.
Print Assumptions C16_false_refuted.

(** * the hypotheses can be met *)
(* B = (x + y - 1, y - z, z - 1/2 + (x - 1/2) / 4): a null at (1/2, 1/2, 1/2) in a candidate *)
Definition slanted : fld := fun i j k d => match d with 0%nat => INR i + INR j - 1 | 1%nat => INR j - INR k | _ => INR k - 1 / 2 + (INR i - 1 / 2) / 4 end.
Example C16_nonvacuous : null_at slanted 0 0 0 (1 / 2) (1 / 2) (1 / 2) /\ In (0, 0, 0)%nat (candidates 2 2 2 slanted INR INR INR 0).
Proof.
  assert (N : null_at slanted 0 0 0 (1 / 2) (1 / 2) (1 / 2)) by (intros [|[|[|d]]] Hd; [| | |lia]; unfold tri, lerp; cbn [slanted Nat.add INR]; lra). split; [exact N|].
  destruct (C16_no_null_lost 2 2 2 slanted INR INR INR 0 0 0 0 (1 / 2) (1 / 2) (1 / 2) ltac:(lia) ltac:(cbn [INR pow]; lra) ltac:(lra) ltac:(lra) ltac:(lra) N) as [H|(d & Hd & H)]; [exact H|]. exfalso.
  assert (K := H (slanted 1%nat 1%nat 0%nat d) ltac:(exists 1%nat, 1%nat, 0%nat; repeat split; auto with arith)). destruct d as [|[|[|d]]]; [| | |lia]; cbn [slanted INR] in K; lra.
Qed.
(* f1 = x + y - 1, f2 = x - y + x y - 1/4 meet at (1/2, 1/2) *)
Example C16_face_nonvacuous : In (1 / 2, 1 / 2) (find_roots_face (-1) 1 1 0 (- 1 / 4) 1 (-1) 1).
Proof. apply C16_face_complete; lra. Qed.
(* a null in the middle of the face x = 0 of the cell *)
Definition on_face : fld := fun i j k d => match d with 0%nat => INR j + INR k - 1 | 1%nat => INR j - INR k | _ => INR i end.
Example C16_on_face_nonvacuous : have_null on_face 0 0 0 = true.
Proof.
  apply (C16_null_on_face on_face 0 0 0 2 0 1 2 (1 / 2) (1 / 2)); [left; reflexivity|left; reflexivity|lra|lra| |].
  - intros [|[|[|c]]] Hc; [| | |lia]; unfold tri3, tri, lerp; cbn [face_point fst snd on_face Nat.add INR]; lra.
  - cbn [coef oa ob oc od nth at_off on_face Nat.add INR]. split; lra.
Qed.
Example C16_reported_nonvacuous : exists l, find_nulls 2 2 2 skew INR INR INR 0 = inr l.
Proof. eexists. apply C16_false_refuted. Qed.
