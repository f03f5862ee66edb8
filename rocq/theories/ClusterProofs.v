(** Proofs about find_clusters. *)
From Verif Require Export ClusterModel.
From Coq Require Import ZifyBool ZifyNat.
From Coq Require Export Relations.
Open Scope Z_scope.

(** Neighbours on the index grid: sharing an edge, or also a corner. *)
Definition adj (diagonals : bool) (p q : Z * Z) : Prop :=
  if diagonals then Z.abs (fst p - fst q) <= 1 /\ Z.abs (snd p - snd q) <= 1
  else Z.abs (fst p - fst q) + Z.abs (snd p - snd q) <= 1.

(** Neighbours on a grid that repeats with period N (0: does not repeat). *)
Definition padj (diagonals : bool) (N : Z * Z) (p q : Z * Z) : Prop :=
  exists a b, adj diagonals p (fst q + a * fst N, snd q + b * snd N).

Lemma touches_adj dg p q : touches dg (d2 p q) = true <-> adj dg p q.
Proof.
  unfold touches, adj, d2. destruct p as [a b], q as [c d]. cbn [fst snd].
  set (x := a - c). set (y := b - d). rewrite Z.leb_le. destruct dg; split; intros H.
  - split; nia.
  - destruct H. assert (x * x <= 1) by nia. assert (y * y <= 1) by nia. lia.
  - assert (Z.abs x <= 1 /\ Z.abs y <= 1) as [A B] by (split; nia).
    destruct (Z.eq_dec x 0), (Z.eq_dec y 0); nia.
  - assert (x = 0 \/ y = 0) by lia. nia.
Qed.

Lemma touches_mono dg d d' : d' <= d -> touches dg d = true -> touches dg d' = true.
Proof. unfold touches. rewrite !Z.leb_le. lia. Qed.

Lemma adj_sym dg p q : adj dg p q -> adj dg q p.
Proof. unfold adj. destruct dg; lia. Qed.

Lemma padj_sym dg N p q : padj dg N p q -> padj dg N q p.
Proof.
  intros (a & b & H). exists (- a), (- b). unfold adj in *. cbn [fst snd] in *. destruct dg; lia.
Qed.

Lemma min_d2_spec pts p :
  match min_d2 pts p with
  | None => pts = []
  | Some d => (exists q, In q pts /\ d2 q p = d) /\ forall q, In q pts -> d <= d2 q p
  end.
Proof.
  induction pts as [|q pts IH]; [reflexivity|]. cbn [min_d2].
  destruct (min_d2 pts p) as [m|].
  - destruct IH as [(q' & I' & E') M]. split.
    + destruct (Z.min_spec (d2 q p) m) as [[A B]|[A B]]; rewrite B.
      * exists q. split; [now left|reflexivity].
      * exists q'. split; [now right|exact E'].
    + intros r [<-|Ir]; [lia|]. specialize (M r Ir). lia.
  - subst pts. split.
    + exists q. split; [now left|reflexivity].
    + intros r [<-|[]]. lia.
Qed.

Lemma distance_spec p alt c d w :
  distance_to_cluster p alt c = Some (d, w) ->
  (exists q a, In q (c_ij c) /\ In a ((0, 0) :: alt) /\ d2 q (fst p + fst a, snd p + snd a) = d) /\
  (forall q, In q (c_ij c) -> d <= d2 q p).
Proof.
  unfold distance_to_cluster. pose proof (min_d2_spec (c_ij c) p) as M.
  destruct (min_d2 (c_ij c) p) as [d0|]; [|discriminate]. intros E.
  destruct M as [(q0 & I0 & E0) Min].
  set (f := fun '(d, w) a => match min_d2 (c_ij c) (fst p + fst a, snd p + snd a) with
                             | Some nd => if nd <? d then (nd, a) else (d, w)
                             | None => (d, w) end) in E.
  assert (G : forall l s, incl l alt ->
     (fst s <= d0) ->
     (exists q a, In q (c_ij c) /\ In a ((0, 0) :: alt) /\ d2 q (fst p + fst a, snd p + snd a) = fst s) ->
     fst (fold_left f l s) <= d0 /\
     (exists q a, In q (c_ij c) /\ In a ((0, 0) :: alt) /\
        d2 q (fst p + fst a, snd p + snd a) = fst (fold_left f l s))).
  { induction l as [|a l IH]; intros [sd sw] Hl Hs Hx; [auto|]. cbn [fold_left]. apply IH.
    - intros z Hz. apply Hl. now right.
    - unfold f. pose proof (min_d2_spec (c_ij c) (fst p + fst a, snd p + snd a)) as M.
      destruct (min_d2 (c_ij c) _) as [nd|]; [|exact Hs]. destruct (nd <? sd) eqn:L; cbn [fst] in *; lia.
    - unfold f. pose proof (min_d2_spec (c_ij c) (fst p + fst a, snd p + snd a)) as M.
      destruct (min_d2 (c_ij c) _) as [nd|]; [|exact Hx]. destruct (nd <? sd) eqn:L; [|exact Hx].
      destruct M as [(q & Iq & Eq) _]. exists q, a. split; [exact Iq|]. split; [right; apply Hl; now left|exact Eq]. }
  destruct (G alt (d0, (0, 0))) as [G1 G2].
  - apply incl_refl.
  - cbn; lia.
  - exists q0, (0, 0). split; [exact I0|]. split; [now left|]. cbn [fst snd].
    rewrite !Z.add_0_r. destruct p; exact E0.
  - destruct (fold_left f alt (d0, (0, 0))) as [df wf]. injection E as <- _. cbn [fst] in *.
    split; [exact G2|]. intros q Iq. specialize (Min q Iq). lia.
Qed.

Lemma distance_some p alt c : c_ij c <> [] -> exists d w, distance_to_cluster p alt c = Some (d, w).
Proof.
  intros H. unfold distance_to_cluster. pose proof (min_d2_spec (c_ij c) p) as M.
  destruct (min_d2 (c_ij c) p); [|contradiction].
  destruct (fold_left _ _ _) as [d w]. eauto.
Qed.

Lemma all_some_map {A B} (f : A -> option B) (l : list A) :
  (forall a, In a l -> exists b, f a = Some b) -> exists r, all_some (map f l) = Some r.
Proof.
  induction l as [|a l IH]; intros H; [eexists; reflexivity|]. cbn [map all_some].
  destruct (H a (or_introl eq_refl)) as [b ->]. destruct IH as [r ->]; [|eexists; reflexivity].
  intros x Hx. apply H. now right.
Qed.

Lemma all_some_nth {A} (l : list (option A)) r :
  all_some l = Some r -> l = map Some r.
Proof.
  revert r. induction l as [|[a|] l IH]; intros r E; cbn in E; [injection E as <-; reflexivity| |discriminate].
  destruct (all_some l); [|discriminate]. cbn in E. injection E as <-. cbn. f_equal. now apply IH.
Qed.

(** ** The merge loop *)
Section Merge.
Context (dg : bool) (N : Z * Z) (L : Q * Q) (D : cluster -> Z * (Z * Z)).

Definition hit (c : cluster) : bool := touches dg (fst (D c)).
Definition lifted (c : cluster) : cluster := unshift N L (snd (D c)) c.

Lemma flat_app k l1 l2 : flatnonzero dg k (l1 ++ l2) = flatnonzero dg k l1 ++ flatnonzero dg (k + length l1) l2.
Proof.
  revert k. induction l1 as [|[d w] l1 IH]; intros k; cbn [app flatnonzero length].
  - f_equal. lia.
  - rewrite IH, app_assoc. do 2 f_equal. lia.
Qed.

Lemma pop_mid l1 c l2 : pop (length l1) (l1 ++ c :: l2) = Some (c, l1 ++ l2).
Proof.
  unfold pop. rewrite nth_error_app2 by lia. rewrite Nat.sub_diag. cbn [nth_error]. f_equal. f_equal. f_equal.
  - rewrite firstn_app, Nat.sub_diag, firstn_all. cbn. apply app_nil_r.
  - rewrite skipn_app. replace (S (length l1) - length l1)%nat with 1%nat by lia.
    rewrite skipn_all2 by lia. reflexivity.
Qed.

Lemma merge_spec cls1 : forall rest lst,
  merge N L (rev (flatnonzero dg 0 (map D cls1))) (cls1 ++ rest) lst =
  Some (filter (fun c => negb (hit c)) cls1 ++ rest ++
        [fold_left (fun l c => absorb l (lifted c)) (rev (filter hit cls1)) lst]).
Proof.
  induction cls1 as [|c cls1 IH] using rev_ind; intros rest lst.
  - reflexivity.
  - rewrite map_app, flat_app. cbn [map]. rewrite map_length. cbn [Nat.add].
    rewrite !filter_app. cbn [filter]. unfold hit at 2 4. destruct (D c) as [d w] eqn:E. cbn [fst flatnonzero].
    destruct (touches dg d) eqn:T; cbn [negb].
    + rewrite app_nil_r. rewrite rev_app_distr. cbn [rev app]. cbn [merge].
      rewrite <- app_assoc. cbn [app]. rewrite pop_mid. rewrite IH.
      rewrite app_nil_r. rewrite rev_app_distr. cbn [rev app fold_left]. unfold lifted at 3. rewrite E. reflexivity.
    + rewrite !app_nil_r. rewrite <- !app_assoc. cbn [app]. rewrite IH.
      reflexivity.
Qed.
End Merge.

(** ** One step, up to the order of the clusters *)
Definition good (N : Z * Z) (L : Q * Q) (xs ys : list Q) (pts : nat -> Z * Z) (c : cluster) : Prop :=
  c_mem c <> [] /\
  Forall2 (fun i p => exists a b, p = (fst (pts i) + a * fst N, snd (pts i) + b * snd N)) (c_mem c) (c_ij c) /\
  Forall2 (fun i q => exists x y a b, crd xs (fst (pts i)) = Some x /\ crd ys (snd (pts i)) = Some y /\
             (fst q == x + inject_Z a * fst L)%Q /\ (snd q == y + inject_Z b * snd L)%Q) (c_mem c) (c_xy c).

Lemma good_absorb N L xs ys pts c c' :
  good N L xs ys pts c -> good N L xs ys pts c' -> good N L xs ys pts (absorb c c').
Proof.
  intros (A & B & C) (A' & B' & C'). unfold absorb. repeat split; cbn [c_mem c_ij c_xy].
  - intros E. apply app_eq_nil in E. tauto.
  - apply Forall2_app; assumption.
  - apply Forall2_app; assumption.
Qed.

Lemma Forall2_impl {A B} (P Q : A -> B -> Prop) l m :
  (forall a b, P a b -> Q a b) -> Forall2 P l m -> Forall2 Q l m.
Proof. intros H. induction 1; constructor; auto. Qed.

Lemma Forall2_map_r {A B C} (P : A -> C -> Prop) (f : B -> C) l m :
  Forall2 (fun a b => P a (f b)) l m -> Forall2 P l (map f m).
Proof. induction 1; constructor; auto. Qed.

Lemma good_unshift N L xs ys pts w c :
  good N L xs ys pts c -> good N L xs ys pts (unshift N L w c).
Proof.
  intros (A & B & C). unfold unshift. repeat split; cbn [c_mem c_ij c_xy].
  - exact A.
  - apply Forall2_map_r. eapply Forall2_impl; [|exact B]. cbn beta. intros i [p q] (a & b & E).
    injection E as -> ->. exists (a - fst w), (b - snd w). f_equal; ring.
  - apply Forall2_map_r. eapply Forall2_impl; [|exact C]. cbn beta. intros i [p q] (x & y & a & b & E1 & E2 & E3 & E4).
    cbn [fst snd] in *. exists x, y, (a - fst w), (b - snd w). split; [exact E1|]. split; [exact E2|].
    rewrite E3, E4. unfold Z.sub. rewrite !inject_Z_plus, !inject_Z_opp. split; ring.
Qed.

Lemma append_to_spec k i p q : forall cls c, nth_error cls k = Some c ->
  Permutation (append_to k i p q cls)
    (mkcl (c_mem c ++ [i]) (c_ij c ++ [p]) (c_xy c ++ [q]) :: firstn k cls ++ skipn (S k) cls).
Proof.
  induction k as [|k IH]; intros [|c0 cls] c E; try discriminate.
  - cbn in E. injection E as ->. reflexivity.
  - cbn [nth_error] in E. cbn [append_to firstn skipn app].
    eapply Permutation_trans; [apply perm_skip, (IH cls c E)|]. apply perm_swap.
Qed.

Lemma flat_single dg (D : cluster -> Z * (Z * Z)) cls k0 k w :
  flatnonzero dg k0 (map D cls) = [(k, w)] ->
  (k0 <= k)%nat /\ exists c, nth_error cls (k - k0) = Some c /\ filter (hit dg D) cls = [c] /\ w = snd (D c) /\
    filter (fun c => negb (hit dg D c)) cls = firstn (k - k0) cls ++ skipn (S (k - k0)) cls.
Proof.
  revert k0. induction cls as [|c cls IH]; intros k0 E; [discriminate|].
  cbn [map flatnonzero] in E. unfold hit in *. destruct (D c) as [d v] eqn:Ed. cbn [fst] in *.
  cbn [filter]. rewrite Ed. cbn [fst]. destruct (touches dg d) eqn:T; cbn [negb].
  - cbn [app] in E. injection E as <- <- E. split; [lia|]. exists c. rewrite Nat.sub_diag. cbn [nth_error firstn skipn app].
    assert (F : forall k0 l, flatnonzero dg k0 (map D l) = [] ->
              filter (fun c => touches dg (fst (D c))) l = [] /\ filter (fun c => negb (touches dg (fst (D c)))) l = l).
    { clear. intros k0 l. revert k0. induction l as [|c l IH]; intros k0 E; [auto|].
      cbn [map flatnonzero] in E. destruct (D c) as [d w] eqn:Ed. cbn [filter]. rewrite Ed. cbn [fst].
      destruct (touches dg d); [discriminate|]. cbn [app negb] in *. destruct (IH _ E) as [A B]. rewrite A, B. auto. }
    destruct (F _ _ E) as [F1 F2]. rewrite F1, F2. split; [reflexivity|]. split; [reflexivity|].
    split; [|reflexivity]. rewrite Ed. reflexivity.
  - cbn [app] in E. destruct (IH _ E) as (Hk & c' & E1 & E2 & E3 & E4). split; [lia|].
    exists c'. replace (k - k0)%nat with (S (k - S k0)) by lia. cbn [nth_error firstn skipn app].
    rewrite E2, E4. auto.
Qed.

Lemma flat_nil dg (D : cluster -> Z * (Z * Z)) cls k0 :
  flatnonzero dg k0 (map D cls) = [] ->
  filter (hit dg D) cls = [] /\ filter (fun c => negb (hit dg D c)) cls = cls.
Proof.
  revert k0. induction cls as [|c l IH]; intros k0 E; [auto|].
  cbn [map flatnonzero] in E. cbn [filter]. unfold hit in *. destruct (D c) as [d w] eqn:Ed. cbn [fst] in *.
  destruct (touches dg d); [discriminate|]. cbn [app negb] in *. destruct (IH _ E) as [A B]. rewrite A, B. auto.
Qed.

Lemma fold_absorb N L (D : cluster -> Z * (Z * Z)) xs ys pts : forall l s,
  good N L xs ys pts s -> Forall (good N L xs ys pts) l ->
  let M := fold_left (fun l c => absorb l (lifted N L D c)) l s in
  good N L xs ys pts M /\ c_mem M = c_mem s ++ concat (map c_mem l).
Proof.
  induction l as [|c l IH]; intros s Hs Hl; cbn [fold_left map concat].
  - rewrite app_nil_r. auto.
  - inversion Hl as [|? ? Hc Hl']; subst.
    destruct (IH (absorb s (lifted N L D c))) as [A B]; auto.
    { apply good_absorb; auto. apply good_unshift; auto. }
    split; [exact A|]. cbv zeta in *. rewrite B. cbn. rewrite app_assoc. reflexivity.
Qed.

Lemma Permutation_concat {A} (l m : list (list A)) : Permutation l m -> Permutation (concat l) (concat m).
Proof.
  induction 1; cbn; auto.
  - apply Permutation_app_head; auto.
  - rewrite !app_assoc. apply Permutation_app_tail. apply Permutation_app_comm.
  - eapply Permutation_trans; eauto.
Qed.

Lemma step_spec dg alt N L xs ys pts cls i :
  Forall (good N L xs ys pts) cls ->
  (exists x y, crd xs (fst (pts i)) = Some x /\ crd ys (snd (pts i)) = Some y) ->
  exists cls' M D,
    cluster_step dg alt N L xs ys cls i (pts i) = Some cls' /\
    (forall c, In c cls -> distance_to_cluster (pts i) alt c = Some (D c)) /\
    Permutation cls' (M :: filter (fun c => negb (hit dg D c)) cls) /\
    good N L xs ys pts M /\
    Permutation (c_mem M) (i :: concat (map c_mem (filter (hit dg D) cls))).
Proof.
  intros G (x & y & Ex & Ey).
  set (D := fun c => match distance_to_cluster (pts i) alt c with Some dw => dw | None => (0, (0, 0)) end).
  assert (HD : forall c, In c cls -> distance_to_cluster (pts i) alt c = Some (D c)).
  { intros c Hc. unfold D. rewrite Forall_forall in G. destruct (G c Hc) as (A & B & _).
    destruct (distance_some (pts i) alt c) as (d & w & E); [|rewrite E; reflexivity].
    intros E. rewrite E in B. inversion B. auto. }
  assert (E0 : all_some (map (distance_to_cluster (pts i) alt) cls) = Some (map D cls)).
  { clear G. revert HD. generalize D. clear D. intros D. induction cls as [|c cls IH]; intros HD; [reflexivity|].
    cbn [map all_some]. rewrite (HD c (or_introl eq_refl)). rewrite IH; [reflexivity|].
    intros c' H'. apply HD. now right. }
  assert (Gn : good N L xs ys pts (mkcl [i] [pts i] [(x, y)])).
  { repeat split; cbn [c_mem c_ij c_xy]; [discriminate| |].
    - constructor; [|constructor]. exists 0, 0. destruct (pts i). cbn. f_equal; ring.
    - constructor; [|constructor]. exists x, y, 0, 0. cbn [fst snd]. repeat split; auto; ring. }
  unfold cluster_step. rewrite E0, Ex, Ey.
  destruct (flatnonzero dg 0 (map D cls)) as [|[k w] [|kw rest]] eqn:F.
  - apply flat_nil in F. destruct F as [F1 F2].
    exists (cls ++ [mkcl [i] [pts i] [(x, y)]]), (mkcl [i] [pts i] [(x, y)]), D.
    split; [reflexivity|]. split; [exact HD|]. rewrite F1, F2. split; [|split; [exact Gn|reflexivity]].
    apply Permutation_sym, Permutation_cons_append.
  - apply flat_single in F. destruct F as (_ & c & E1 & E2 & E3 & E4). rewrite Nat.sub_0_r in *.
    eexists _, _, D. split; [reflexivity|]. split; [exact HD|]. rewrite E4, E2. split; [|split].
    + apply append_to_spec. exact E1.
    + assert (Gc : good N L xs ys pts c).
      { rewrite Forall_forall in G. apply G. eapply nth_error_In; eauto. }
      destruct Gc as (A & B & C). repeat split; cbn [c_mem c_ij c_xy].
      * intros Z0. apply app_eq_nil in Z0. destruct Z0. discriminate.
      * apply Forall2_app; [exact B|]. constructor; [|constructor]. exists (fst w), (snd w). reflexivity.
      * apply Forall2_app; [exact C|]. constructor; [|constructor]. exists x, y, (fst w), (snd w).
        cbn [fst snd]. repeat split; auto; reflexivity.
    + cbn [c_mem map concat]. rewrite app_nil_r. apply Permutation_sym, Permutation_cons_append.
  - pose proof (merge_spec dg N L D cls [] (mkcl [i] [pts i] [(x, y)])) as Mg.
    rewrite app_nil_r, F in Mg. rewrite Mg. cbn [app].
    destruct (fold_absorb N L D xs ys pts (rev (filter (hit dg D) cls)) _ Gn) as [A B].
    { rewrite Forall_forall in *. intros c Hc. apply G. apply in_rev in Hc. apply filter_In in Hc. tauto. }
    eexists _, _, D. split; [reflexivity|]. split; [exact HD|]. split; [|split; [exact A|]].
    + apply Permutation_sym, Permutation_cons_append.
    + rewrite B. cbn [c_mem app]. apply perm_skip. apply Permutation_concat.
      apply Permutation_map. apply Permutation_sym, Permutation_rev.
Qed.

Lemma Permutation_filter_split {A} (f : A -> bool) l :
  Permutation l (filter f l ++ filter (fun a => negb (f a)) l).
Proof.
  induction l as [|a l IH]; [reflexivity|]. cbn [filter]. destruct (f a); cbn [negb app].
  - apply perm_skip; exact IH.
  - eapply Permutation_trans; [apply perm_skip; exact IH|]. apply Permutation_middle.
Qed.

(** Linked by a chain of the first m points, consecutive ones adjacent. *)
Definition linked (R : Z * Z -> Z * Z -> Prop) (pts : nat -> Z * Z) (m : nat) : nat -> nat -> Prop :=
  clos_refl_trans nat (fun i j => (i < m)%nat /\ (j < m)%nat /\ R (pts i) (pts j)).

Lemma linked_mono R pts m i j : linked R pts m i j -> linked R pts (S m) i j.
Proof.
  induction 1.
  - apply rt_step. intuition lia.
  - apply rt_refl.
  - eapply rt_trans; eauto.
Qed.

Lemma linked_sym (R : Z * Z -> Z * Z -> Prop) pts m i j : (forall p q, R p q -> R q p) -> linked R pts m i j -> linked R pts m j i.
Proof.
  intros Hs. induction 1.
  - apply rt_step. intuition.
  - apply rt_refl.
  - eapply rt_trans; eauto.
Qed.

Definition partitioned (m : nat) (cls : list cluster) : Prop :=
  Permutation (concat (map c_mem cls)) (seq 0 m).

Definition sound (dg : bool) (N : Z * Z) (pts : nat -> Z * Z) (m : nat) (cls : list cluster) : Prop :=
  forall c i j, In c cls -> In i (c_mem c) -> In j (c_mem c) -> linked (padj dg N) pts m i j.

Definition complete (dg : bool) (pts : nat -> Z * Z) (m : nat) (cls : list cluster) : Prop :=
  forall i j, (i < m)%nat -> (j < m)%nat -> adj dg (pts i) (pts j) ->
    exists c, In c cls /\ In i (c_mem c) /\ In j (c_mem c).

Definition multiples (N : Z * Z) (alt : list (Z * Z)) : Prop :=
  Forall (fun a => exists u v, a = (u * fst N, v * snd N)) alt.

Lemma Forall2_in_r {A B} (P : A -> B -> Prop) l m b : Forall2 P l m -> In b m -> exists a, In a l /\ P a b.
Proof.
  induction 1 as [|x y l m H H' IH]; intros [].
  - subst. exists x. split; [now left|exact H].
  - destruct (IH H0) as (a & I & Pa). exists a. split; [now right|exact Pa].
Qed.
Lemma Forall2_in_l {A B} (P : A -> B -> Prop) l m a : Forall2 P l m -> In a l -> exists b, In b m /\ P a b.
Proof.
  induction 1 as [|x y l m H H' IH]; intros [].
  - subst. exists y. split; [now left|exact H].
  - destruct (IH H0) as (b & I & Pb). exists b. split; [now right|exact Pb].
Qed.

Lemma step_inv dg alt N L xs ys pts cls m :
  multiples N alt ->
  Forall (good N L xs ys pts) cls -> partitioned m cls -> sound dg N pts m cls ->
  (exists x y, crd xs (fst (pts m)) = Some x /\ crd ys (snd (pts m)) = Some y) ->
  exists cls', cluster_step dg alt N L xs ys cls m (pts m) = Some cls' /\
    Forall (good N L xs ys pts) cls' /\ partitioned (S m) cls' /\ sound dg N pts (S m) cls' /\
    (N = (0, 0) -> complete dg pts m cls -> complete dg pts (S m) cls').
Proof.
  intros Halt G Pt Sd Hx.
  destruct (step_spec dg alt N L xs ys pts cls m G Hx) as (cls' & M & D & E & HD & Pm & GM & PM).
  exists cls'. split; [exact E|].
  assert (G' : Forall (good N L xs ys pts) cls').
  { rewrite Forall_forall in *. intros c Hc. eapply Permutation_in in Hc; [|exact Pm].
    destruct Hc as [<-|Hc]; [exact GM|]. apply filter_In in Hc. apply G, Hc. }
  assert (Hmem : forall i, In i (c_mem M) <-> i = m \/ exists c, In c cls /\ hit dg D c = true /\ In i (c_mem c)).
  { intros i. split.
    - intros Hi. eapply Permutation_in in Hi; [|exact PM]. destruct Hi as [<-|Hi]; [now left|]. right.
      apply in_concat in Hi. destruct Hi as (l & Hl & Hi). apply in_map_iff in Hl. destruct Hl as (c & <- & Hc).
      apply filter_In in Hc. exists c. tauto.
    - intros Hi. eapply Permutation_in; [apply Permutation_sym; exact PM|].
      destruct Hi as [-> |(c & Hc & Hh & Hi)]; [now left|]. right. apply in_concat. exists (c_mem c). split; [|exact Hi].
      apply in_map. apply filter_In. auto. }
  assert (Hlt : forall c i, In c cls -> In i (c_mem c) -> (i < m)%nat).
  { intros c i Hc Hi. assert (In i (concat (map c_mem cls))).
    { apply in_concat. exists (c_mem c). split; [now apply in_map|exact Hi]. }
    eapply Permutation_in in H; [|exact Pt]. apply in_seq in H. lia. }
  split; [exact G'|]. split; [|split].
  - unfold partitioned in *. rewrite seq_S. cbn [Nat.add].
    eapply Permutation_trans; [apply Permutation_concat, Permutation_map, Pm|]. cbn [map concat].
    eapply Permutation_trans; [apply Permutation_app_tail, PM|]. cbn [app].
    eapply Permutation_trans; [|apply Permutation_cons_append]. apply perm_skip.
    eapply Permutation_trans; [|exact Pt]. rewrite <- concat_app, <- map_app.
    apply Permutation_concat, Permutation_map, Permutation_sym, Permutation_filter_split.
  - assert (ToM : forall i, In i (c_mem M) -> linked (padj dg N) pts (S m) m i).
    { intros i Hi. apply Hmem in Hi. destruct Hi as [-> |(c & Hc & Hh & Hi)]; [apply rt_refl|].
      unfold hit in Hh. destruct (D c) as [d w] eqn:Ed. cbn [fst] in Hh.
      pose proof (HD c Hc) as Dc. rewrite Ed in Dc. apply distance_spec in Dc.
      destruct Dc as [(q & a & Iq & Ia & Eq) _]. rewrite <- Eq in Hh. apply touches_adj in Hh.
      rewrite Forall_forall in G. destruct (G c Hc) as (_ & Fij & _).
      destruct (Forall2_in_r _ _ _ _ Fij Iq) as (j & Ij & (u & v & ->)).
      eapply rt_trans with (y := j).
      - apply rt_step. split; [lia|]. split; [specialize (Hlt c j Hc Ij); lia|].
        assert (exists u' v', a = (u' * fst N, v' * snd N)) as (u' & v' & ->).
        { destruct Ia as [<-|Ia]; [exists 0, 0; f_equal; ring|].
          unfold multiples in Halt. rewrite Forall_forall in Halt. apply Halt; exact Ia. }
        exists (u - u'), (v - v'). unfold adj in *. cbn [fst snd] in *.
        destruct dg; lia.
      - apply linked_mono. eapply Sd; eauto. }
    intros c i j Hc Hi Hj. eapply Permutation_in in Hc; [|exact Pm]. destruct Hc as [<-|Hc].
    + eapply rt_trans; [|apply ToM; exact Hj].
      apply linked_sym; [intros; apply padj_sym; assumption|]. apply ToM; exact Hi.
    + apply filter_In in Hc. apply linked_mono. eapply Sd; [apply Hc| |]; assumption.
  - intros -> Cp i j Hi Hj A.
    assert (InM : In M cls') by (eapply Permutation_in; [apply Permutation_sym; exact Pm|now left]).
    assert (Near : forall k, (k < m)%nat -> adj dg (pts k) (pts m) -> In k (c_mem M)).
    { intros k Hk Ak. apply Hmem. right.
      assert (In k (concat (map c_mem cls))) as Ik.
      { eapply Permutation_in; [apply Permutation_sym; exact Pt|]. apply in_seq. lia. }
      apply in_concat in Ik. destruct Ik as (l & Hl & Ik). apply in_map_iff in Hl. destruct Hl as (c & <- & Hc).
      exists c. split; [exact Hc|]. split; [|exact Ik].
      unfold hit. destruct (D c) as [d w] eqn:Ed. pose proof (HD c Hc) as Dc. rewrite Ed in Dc.
      apply distance_spec in Dc. destruct Dc as [_ Dm].
      rewrite Forall_forall in G. destruct (G c Hc) as (_ & Fij & _).
      destruct (Forall2_in_l _ _ _ _ Fij Ik) as (q & Iq & (u & v & Eq)). cbn [fst snd] in Eq.
      rewrite !Z.mul_0_r, !Z.add_0_r in Eq. rewrite <- surjective_pairing in Eq. subst q.
      cbn [fst]. apply touches_mono with (d := d2 (pts k) (pts m)); [apply Dm; exact Iq|].
      apply touches_adj. exact Ak. }
    assert (Im : In m (c_mem M)) by (apply Hmem; now left).
    destruct (Nat.eq_dec i m) as [-> |Ni], (Nat.eq_dec j m) as [-> |Nj].
    + exists M. auto.
    + exists M. split; [exact InM|]. split; [exact Im|]. apply Near; [lia|]. apply adj_sym. exact A.
    + exists M. split; [exact InM|]. split; [|exact Im]. apply Near; [lia|]. exact A.
    + destruct (Cp i j) as (c & Hc & Ii & Ij); [lia|lia|exact A|].
      destruct (hit dg D c) eqn:Hh.
      * exists M. split; [exact InM|]. split; apply Hmem; right; exists c; auto.
      * exists c. split; [|auto]. eapply Permutation_in; [apply Permutation_sym; exact Pm|]. right.
        apply filter_In. rewrite Hh. auto.
Qed.

Lemma loop_inv dg alt N L xs ys pts : multiples N alt -> forall n m cls,
  Forall (good N L xs ys pts) cls -> partitioned m cls -> sound dg N pts m cls ->
  (forall i, (m <= i < m + n)%nat -> exists x y, crd xs (fst (pts i)) = Some x /\ crd ys (snd (pts i)) = Some y) ->
  exists cls', cluster_loop dg alt N L xs ys cls m (map pts (seq m n)) = Some cls' /\
    Forall (good N L xs ys pts) cls' /\ partitioned (m + n) cls' /\ sound dg N pts (m + n) cls' /\
    (N = (0, 0) -> complete dg pts m cls -> complete dg pts (m + n) cls').
Proof.
  intros Halt n. induction n as [|n IH]; intros m cls G Pt Sd Hx.
  - exists cls. cbn [seq map cluster_loop]. rewrite Nat.add_0_r. auto.
  - cbn [seq map cluster_loop].
    destruct (step_inv dg alt N L xs ys pts cls m Halt G Pt Sd) as (c1 & E & G1 & P1 & S1 & C1).
    { apply Hx. lia. }
    rewrite E. destruct (IH (S m) c1 G1 P1 S1) as (c2 & E2 & G2 & P2 & S2 & C2).
    { intros i Hi. apply Hx. lia. }
    exists c2. replace (m + S n)%nat with (S m + n)%nat by lia. auto 8.
Qed.

Lemma alts_multiples p0 p1 N0 N1 : multiples (N0, N1) (alts p0 p1 N0 N1).
Proof.
  unfold multiples, alts. rewrite !Forall_app. cbn [fst snd]. repeat split.
  - destruct (is_per p0); repeat constructor.
    + exists (-1), 0. f_equal; ring.
    + exists 1, 0. f_equal; ring.
  - destruct (is_per p1); repeat constructor.
    + exists 0, (-1). f_equal; ring.
    + exists 0, 1. f_equal; ring.
  - destruct (is_per p0 && is_per p1); repeat constructor.
    + exists (-1), (-1). f_equal; ring.
    + exists 1, 1. f_equal; ring.
Qed.
