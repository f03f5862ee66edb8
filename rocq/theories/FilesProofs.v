(** Lemmas about the cache of loaded files. *)
From Coq Require Import Lia ZifyBool ZifyNat.
From Verif Require Export FilesModel BucketProofs.
Open Scope Z_scope.

Notation named w n := (dget handle_eq (b_items (w_bucket w)) (HObj n)).
Notation refs w k := (dget k_eq (b_refs (w_bucket w)) k).

Lemma store_known w n it ix ar : Inv (w_bucket w) -> named w n = Some it ->
  exists b', store w n it ix ar = (World b' (w_objs w) (w_next w), FOk) /\ Inv b' /\
    (forall h, iget b' h = iget (w_bucket w) h) /\
    (forall k, k <> ikey it -> hget b' k <> None -> rget b' k = refs w k) /\
    (forall r, refs w (ikey it) = Some r -> rget b' (ikey it) = Some (if ar then r + 1 else r)).
Proof.
  intros I E. unfold store. destruct (set_item_spec (w_bucket w) [HObj n] it ix ar I) as (b' & Q & I' & _ & G & R1 & R2 & _).
  assert (K : hget (w_bucket w) (ikey it) <> None) by (apply Inv_hget; eauto).
  destruct (hget (w_bucket w) (ikey it)) eqn:Eh; [|congruence]. cbn [negb andb] in *. rewrite Q.
  exists b'. split; [reflexivity|]. split; [exact I'|]. split; [|split; [exact R1|]].
  - intros h. rewrite G. cbn [filter hashable]. destruct (in_dec handle_eq h [HObj n]) as [[<-|[]]|]; [now rewrite E|reflexivity].
  - apply R2. exists (HObj n), it. auto.
Qed.

Lemma store_new w n it ix ar : Inv (w_bucket w) -> named w n = None ->
  (forall h i, iget (w_bucket w) h = Some i -> ikey i <> ikey it) ->
  exists b', store w n it ix ar = (World b' (w_objs w) (w_next w), FOk) /\ Inv b' /\
    (forall m, iget b' (HObj m) = if n_eq m n then Some it else named w m) /\
    (forall h i, iget b' h = Some i -> i = it \/ iget (w_bucket w) h = Some i) /\
    rget b' (ikey it) = Some 1 /\
    (forall k, k <> ikey it -> hget b' k <> None -> rget b' k = refs w k).
Proof.
  intros I E F. unfold store. destruct (set_item_spec (w_bucket w) [HObj n] it ix ar I) as (b' & Q & I' & _ & G & R1 & _ & R3 & _).
  destruct (hget (w_bucket w) (ikey it)) eqn:Eh.
  { exfalso. assert (K : hget (w_bucket w) (ikey it) <> None) by congruence. apply Inv_hget in K; [|exact I].
    destruct K as (h & i & A & B). exact (F h i A B). }
  cbn [negb andb] in *. rewrite Q. exists b'. split; [reflexivity|]. split; [exact I'|].
  assert (Hn : iget b' (HObj n) = Some it).
  { rewrite G. destruct (in_dec _ _ _) as [|N]; [reflexivity|]. exfalso. apply N. destruct ix; cbn; auto. }
  split; [|split; [|split]].
  - intros m. rewrite G. destruct (n_eq m n) as [->|N]; [rewrite <- G; exact Hn|].
    destruct (in_dec _ _ _) as [Y|_]; [|reflexivity]. exfalso. destruct ix; cbn in Y; destruct Y as [Y|[]] || destruct Y as [Y|[Y|[]]]; congruence.
  - intros h i. rewrite G. destruct (in_dec _ _ _); [intros [= ->]; auto|auto].
  - apply R3; [intros h i A B; exfalso; exact (F h i A B)|]. apply Inv_hget; [exact I'|eauto].
  - exact R1.
Qed.

Lemma remove_ref b it r n h0 : Inv b -> iget b h0 = Some it -> rget b (ikey it) = Some r ->
  exists b', remove_reference b (AItem it) n = (b', OOk) /\ Inv b' /\
    (forall h, iget b' h = match iget b h with
                           | Some i => if (r - n <=? 0) then (if k_eq (ikey i) (ikey it) then None else Some i) else Some i
                           | None => None end) /\
    (forall k, k <> ikey it -> rget b' k = rget b k) /\
    (0 < r - n -> rget b' (ikey it) = Some (r - n)).
Proof.
  intros I E Er. unfold remove_reference. rewrite Er. cbv beta zeta.
  set (b1 := Bucket (dset k_eq (b_refs b) (ikey it) (r - n)) (b_lookup b) (b_handles b) (b_items b) (b_counter b)).
  assert (I1 : Inv b1) by (apply Inv_refs; [exact I|congruence]).
  destruct (Z.leb_spec (r - n) 0) as [L|L].
  - destruct (remove_item_spec b1 (ikey it) I1) as [_ H].
    destruct H as (b' & Q & I' & _ & G & _ & RR & _).
    { apply Inv_hget; [exact I1|]. exists h0, it. auto. }
    rewrite Q. exists b'. split; [reflexivity|]. split; [exact I'|]. split; [|split].
    + intros h. rewrite G. unfold b1. cbn [b_items]. destruct (iget b h); reflexivity.
    + intros k N. rewrite RR. destruct (k_eq k (ikey it)); [congruence|]. unfold b1. cbn [b_refs]. rewrite dget_dset.
      destruct (k_eq k (ikey it)); [congruence|reflexivity].
    + lia.
  - exists b1. split; [reflexivity|]. split; [exact I1|]. unfold b1. cbn [b_items b_refs]. split; [|split].
    + intros h. destruct (iget b h); reflexivity.
    + intros k N. rewrite dget_dset. destruct (k_eq k (ikey it)); [congruence|reflexivity].
    + intros _. rewrite dget_dset. destruct (k_eq (ikey it) (ikey it)); [reflexivity|congruence].
Qed.

(** ** counting *)
Definition counts (kd : dict nat Z) (ks : list nat) : Prop :=
  dwf kd /\ forall k, dget n_eq kd k = if (count_occ n_eq ks k =? 0)%nat then None else Some (Z.of_nat (count_occ n_eq ks k)).
Lemma counts_nil : counts [] [].
Proof. split; [apply dwf_nil|reflexivity]. Qed.
Lemma counts_add kd ks k : counts kd ks ->
  counts (dset n_eq kd k (match dget n_eq kd k with Some c => c | None => 0 end + 1)) (ks ++ [k]).
Proof.
  intros [W G]. split; [now apply dset_wf|]. intros j. rewrite dget_dset, count_occ_app. cbn [count_occ].
  destruct (n_eq j k) as [->|N].
  - destruct (n_eq k k); [|congruence]. rewrite G. destruct (Nat.eqb_spec (count_occ n_eq ks k) 0) as [E|E].
    + rewrite E. reflexivity.
    + destruct (Nat.eqb_spec (count_occ n_eq ks k + 1) 0); [lia|]. f_equal. lia.
  - destruct (n_eq k j); [congruence|]. rewrite Nat.add_0_r. apply G.
Qed.

(** ** the invariant *)
Definition opened := list (nat * list nat).
Record R (kid : nat -> bool) (w : world) (op : opened) (cnt : nat -> Z) (X : nat -> Prop) : Prop := {
  r_inv : Inv (w_bucket w);
  r_own : forall n it, named w n = Some it -> exists id o, it = item_of id /\ obj w id = Some o /\ o_handle o = n;
  r_low : forall h it, iget (w_bucket w) h = Some it -> (ikey it <= w_next w)%nat;
  r_ids : forall id, obj w id <> None -> (id < w_next w)%nat;
  r_top : forall n, kid n = false -> named w n <> None -> In n (map fst op) \/ X n;
  r_open : forall n ks, In (n, ks) op -> kid n = false /\ ~ X n /\ Forall (fun k => kid k = true) ks /\
     exists id o, named w n = Some (item_of id) /\ refs w (S id) = Some 1 /\ obj w id = Some o /\ o_full o = true /\ counts (o_kids o) ks;
  r_kid : forall k, kid k = true -> 0 <= cnt k /\ (cnt k = 0 -> named w k = None) /\
     (0 < cnt k -> exists id o, named w k = Some (item_of id) /\ refs w (S id) = Some (cnt k) /\ obj w id = Some o /\ o_kids o = []);
  r_nd : NoDup (map fst op);
  r_int : forall h it, iget (w_bucket w) h = Some it -> exists n, named w n = Some it
}.

Lemma R_inj kid w op cnt X m n id : R kid w op cnt X -> named w m = Some (item_of id) -> named w n = Some (item_of id) -> m = n.
Proof.
  intros H A B. destruct (r_own _ _ _ _ _ H m _ A) as (i & o & E1 & E2 & E3). destruct (r_own _ _ _ _ _ H n _ B) as (j & p & F1 & F2 & F3).
  unfold item_of in *. injection E1 as E1 _. injection F1 as F1 _. subst. congruence.
Qed.

(** changing the registered counts only *)
Lemma hget_named w n it : Inv (w_bucket w) -> named w n = Some it -> hget (w_bucket w) (ikey it) <> None.
Proof. intros I E. apply Inv_hget; [exact I|eauto]. Qed.

Definition plus1 (cnt : nat -> Z) (k : nat) : nat -> Z := fun j => if n_eq j k then cnt j + 1 else cnt j.

Lemma obj_set w id o i : obj (set_obj w id o) i = if n_eq i id then Some o else obj w i.
Proof. unfold obj, set_obj. cbn [w_objs]. apply dget_dset. Qed.

(** an object that no open file has *)
Lemma R_set kid w op cnt X id o : R kid w op cnt X -> obj w id <> None ->
  (forall m, named w m = Some (item_of id) -> X m /\ kid m = false /\ o_handle o = m) ->
  R kid (set_obj w id o) op cnt X.
Proof.
  intros H L U. destruct H as [H1 H2 H3 H4 H5 H6 H7 H8 H9].
  constructor; cbn [set_obj w_bucket w_next]; auto.
  - intros n it E. destruct (H2 n it E) as (i & p & -> & A & B). destruct (n_eq i id) as [->|N].
    + exists id, o. split; [reflexivity|]. split; [rewrite obj_set; destruct (n_eq id id); congruence|]. apply (U n E).
    + exists i, p. split; [reflexivity|]. split; [|exact B]. rewrite obj_set. destruct (n_eq i id); [congruence|exact A].
  - intros i. rewrite obj_set. destruct (n_eq i id) as [->|]; [intros _; auto|apply H4].
  - intros n ks Hin. destruct (H6 n ks Hin) as (A & B & C & i & p & D1 & D2 & D3 & D4). split; [exact A|]. split; [exact B|]. split; [exact C|].
    exists i, p. split; [exact D1|]. split; [exact D2|]. split; [|exact D4]. rewrite obj_set. destruct (n_eq i id) as [->|]; [|exact D3].
    destruct (U n D1) as (? & _). contradiction.
  - intros k Hk. destruct (H7 k Hk) as (A & B & C). split; [exact A|]. split; [exact B|]. intros P.
    destruct (C P) as (i & p & D1 & D2 & D3 & D4). exists i, p. split; [exact D1|]. split; [exact D2|]. split; [|exact D4].
    rewrite obj_set. destruct (n_eq i id) as [->|]; [|exact D3]. destruct (U k D1) as (_ & F & _). congruence.
Qed.

(** an object keeps its handle and what it refers to *)
Lemma R_full kid w op cnt X id b : R kid w op cnt X -> (b = false -> forall n ks, In (n, ks) op -> named w n <> Some (item_of id)) ->
  R kid (set_full w id b) op cnt X.
Proof.
  intros H N0. unfold set_full. destruct (obj w id) as [o|] eqn:E; [|exact H]. destruct H as [H1 H2 H3 H4 H5 H6 H7 H8 H9].
  constructor; cbn [set_obj w_bucket w_next]; auto.
  - intros n it Q. destruct (H2 n it Q) as (i & p & -> & A & B). destruct (n_eq i id) as [->|N].
    + exists id, (Fobj (o_handle o) b (o_kids o)). split; [reflexivity|]. split; [rewrite obj_set; destruct (n_eq id id); congruence|].
      cbn. congruence.
    + exists i, p. split; [reflexivity|]. split; [|exact B]. rewrite obj_set. destruct (n_eq i id); [congruence|exact A].
  - intros i. rewrite obj_set. destruct (n_eq i id) as [->|]; [intros _; apply H4; congruence|apply H4].
  - intros n ks Hin. destruct (H6 n ks Hin) as (A & B & C & i & p & D1 & D2 & D3 & D4 & D5). split; [exact A|]. split; [exact B|]. split; [exact C|].
    destruct (n_eq i id) as [->|Ni].
    + exists id, (Fobj (o_handle o) b (o_kids o)). split; [exact D1|]. split; [exact D2|]. split; [rewrite obj_set; destruct (n_eq id id); congruence|].
      cbn [o_full o_kids]. destruct b; [|exfalso; exact (N0 eq_refl n ks Hin D1)]. split; [reflexivity|]. rewrite E in D3. injection D3 as ->. exact D5.
    + exists i, p. split; [exact D1|]. split; [exact D2|]. split; [|auto]. rewrite obj_set. destruct (n_eq i id); [congruence|exact D3].
  - intros k Hk. destruct (H7 k Hk) as (A & B & C). split; [exact A|]. split; [exact B|]. intros P.
    destruct (C P) as (i & p & D1 & D2 & D3 & D4). destruct (n_eq i id) as [->|Ni].
    + exists id, (Fobj (o_handle o) b (o_kids o)). split; [exact D1|]. split; [exact D2|]. split; [rewrite obj_set; destruct (n_eq id id); congruence|].
      cbn. rewrite E in D3. injection D3 as ->. exact D4.
    + exists i, p. split; [exact D1|]. split; [exact D2|]. split; [|exact D4]. rewrite obj_set. destruct (n_eq i id); [congruence|exact D3].
Qed.

Lemma obj_full w id b i : obj (set_full w id b) i = match obj w i with
  | Some o => Some (if n_eq i id then Fobj (o_handle o) b (o_kids o) else o) | None => None end.
Proof.
  unfold set_full. destruct (obj w id) as [o|] eqn:E.
  - rewrite obj_set. destruct (n_eq i id) as [->|]; [now rewrite E|]. destruct (obj w i); reflexivity.
  - destruct (obj w i) eqn:F; [|reflexivity]. destruct (n_eq i id) as [->|]; [congruence|reflexivity].
Qed.

(** ** one file that is referred to *)
Lemma load_leaf_kid kid d w op cnt X n : R kid w op cnt X -> kid n = true -> d n <> None ->
  exists w' id ko, load_leaf d w n false true = (w', Some id, FOk) /\ R kid w' op (plus1 cnt n) X /\
    obj w' id = Some ko /\ o_handle ko = n /\ named w' n = Some (item_of id) /\
    (forall i, (i < w_next w)%nat -> obj w' i = obj w i) /\ (w_next w <= w_next w')%nat /\
    (forall h it, iget (w_bucket w') h = Some it -> iget (w_bucket w) h = Some it \/ (w_next w < ikey it)%nat) /\
    (forall m it, named w m = Some it -> named w' m = Some it) /\
    (forall m, kid m = false -> named w' m = named w m) /\
    (forall m it, kid m = false -> named w m = Some it -> refs w' (ikey it) = refs w (ikey it)).
Proof.
  intros H Kn Dn. pose proof (r_inv _ _ _ _ _ H) as I. unfold load_leaf, get_file. change (lookup (w_bucket w) (HObj n)) with (named w n).
  destruct (r_kid _ _ _ _ _ H n Kn) as (C0 & C1 & C2).
  destruct (named w n) as [it|] eqn:E.
  - assert (P : 0 < cnt n) by (destruct (Z.eq_dec (cnt n) 0) as [Z0|]; [specialize (C1 Z0); congruence|lia]).
    destruct (C2 P) as (id & o & Q1 & Q2 & Q3 & Q4). assert (it = item_of id) by congruence. subst it.
    destruct (store_known w n (item_of id) false true I E) as (b' & S1 & I' & G & R1 & R2). cbv beta iota. rewrite S1. cbn [id_of item_of ikey].
    destruct (r_own _ _ _ _ _ H n _ E) as (id' & o' & A1 & A2 & A3). injection A1 as A1 _. subst id'.
    assert (RR : forall m it, m <> n -> named w m = Some it -> rget b' (ikey it) = refs w (ikey it)).
    { intros m it N A. destruct (r_own _ _ _ _ _ H m _ A) as (j & p & -> & B1 & B2). apply R1.
      - cbn [item_of ikey]. intros Ej. injection Ej as ->. apply N. exact (R_inj _ _ _ _ _ _ _ _ H A E).
      - apply Inv_hget; [exact I'|]. exists (HObj m), (item_of j). rewrite G. auto. }
    exists (World b' (w_objs w) (w_next w)), id, o. split; [reflexivity|]. split; [|split; [exact Q3|]; split; [congruence|]; split; [cbn [w_bucket]; rewrite G; exact E|]].
    + destruct H as [H1 H2 H3 H4 H5 H6 H7 H8 H9]. constructor; cbn [w_bucket w_next]; auto.
      * intros m it. rewrite G. apply H2.
      * intros h it. rewrite G. apply H3.
      * intros m. rewrite G. apply H5.
      * intros m ks Hin. destruct (H6 m ks Hin) as (B1 & B2 & B3 & j & p & D1 & D2 & D3). split; [exact B1|]. split; [exact B2|]. split; [exact B3|].
        exists j, p. rewrite G. split; [exact D1|]. split; [|exact D3]. rewrite <- D2. apply (RR m (item_of j)); [congruence|exact D1].
      * intros k Hk. destruct (H7 k Hk) as (B1 & B2 & B3). unfold plus1. rewrite G. destruct (n_eq k n) as [->|N].
        -- split; [lia|]. split; [intros; lia|]. intros _. exists id, o. split; [exact E|]. split; [|auto]. apply R2. exact Q2.
        -- split; [exact B1|]. split; [exact B2|]. intros P'. destruct (B3 P') as (j & p & D1 & D2 & D3). exists j, p.
           split; [exact D1|]. split; [|exact D3]. rewrite <- D2. apply (RR k (item_of j)); assumption.
      * intros h it A. rewrite G in A. destruct (H9 h it A) as (m & B). exists m. rewrite G. exact B.
    + cbn [w_bucket w_next]. split; [reflexivity|]. split; [lia|]. split; [intros h it; rewrite G; auto|]. split; [intros m it; now rewrite G|].
      split; [intros m _; now rewrite G|].
      intros m it Hm A. apply (RR m it); [congruence|exact A].
  - cbv beta iota. destruct (d n) as [l|] eqn:Ed; [|congruence]. cbv beta iota. unfold new_obj. cbv beta iota.
    set (w1 := World (w_bucket w) (dset n_eq (w_objs w) (w_next w) (Fobj n true [])) (S (w_next w))).
    assert (F : forall h i, iget (w_bucket w) h = Some i -> ikey i <> ikey (item_of (w_next w))).
    { intros h i A. pose proof (r_low _ _ _ _ _ H h i A). cbn [item_of ikey]. lia. }
    destruct (store_new w1 n (item_of (w_next w)) false true I E F) as (b' & S1 & I' & G & G2 & R1 & R2). rewrite S1. unfold w1. cbn [w_objs w_next].
    assert (O : forall i, obj (World b' (dset n_eq (w_objs w) (w_next w) (Fobj n true [])) (S (w_next w))) i
                         = if n_eq i (w_next w) then Some (Fobj n true []) else obj w i).
    { intros i. unfold obj. cbn [w_objs]. apply dget_dset. }
    assert (RR : forall m it, named w m = Some it -> rget b' (ikey it) = refs w (ikey it)).
    { intros m it A. apply (R2 (ikey it)); [exact (F _ _ A)|]. apply Inv_hget; [exact I'|]. exists (HObj m), it. split; [|reflexivity].
      rewrite G. destruct (n_eq m n) as [->|]; [congruence|exact A]. }
    eexists _, (w_next w), (Fobj n true []). split; [reflexivity|]. split; [|split; [rewrite O; destruct (n_eq _ _); congruence|]; split; [reflexivity|]; split].
    + destruct H as [H1 H2 H3 H4 H5 H6 H7 H8 H9]. constructor; cbn [w_bucket w_next]; auto.
      * intros m it. rewrite G. destruct (n_eq m n) as [->|Nm].
        -- intros [= <-]. exists (w_next w), (Fobj n true []). split; [reflexivity|]. split; [rewrite O; destruct (n_eq _ _); congruence|reflexivity].
        -- intros A. destruct (H2 m it A) as (i & p & -> & B1 & B2). exists i, p. split; [reflexivity|]. split; [|exact B2]. rewrite O.
           destruct (n_eq i (w_next w)) as [->|]; [exfalso|exact B1]. assert (obj w (w_next w) <> None) as L by congruence. apply H4 in L. lia.
      * intros h it A. destruct (G2 h it A) as [->|B]; [cbn; lia|]. specialize (H3 h it B). lia.
      * intros i. rewrite O. destruct (n_eq i (w_next w)) as [->|]; [lia|]. intros A. apply H4 in A. lia.
      * intros m Km. rewrite G. destruct (n_eq m n) as [->|]; [congruence|]. apply H5, Km.
      * intros m ks Hin. destruct (H6 m ks Hin) as (B1 & B2 & B3 & j & p & D1 & D2 & D3 & D4). split; [exact B1|]. split; [exact B2|]. split; [exact B3|].
        exists j, p. rewrite G. destruct (n_eq m n) as [->|]; [congruence|]. split; [exact D1|]. split; [rewrite <- D2; exact (RR m _ D1)|].
        split; [|exact D4]. rewrite O. destruct (n_eq j (w_next w)) as [->|]; [exfalso|exact D3]. assert (obj w (w_next w) <> None) as L by congruence. apply H4 in L. lia.
      * intros k Hk. destruct (H7 k Hk) as (B1 & B2 & B3). unfold plus1. rewrite G. destruct (n_eq k n) as [->|N].
        -- assert (Z0 : cnt n = 0). { destruct (Z.eq_dec (cnt n) 0); [assumption|]. destruct B3 as (? & ? & A & _); [lia|congruence]. }
           rewrite Z0. split; [lia|]. split; [lia|]. intros _. exists (w_next w), (Fobj n true []). split; [reflexivity|]. split; [exact R1|].
           split; [rewrite O; destruct (n_eq _ _); congruence|reflexivity].
        -- split; [exact B1|]. split; [exact B2|]. intros P'. destruct (B3 P') as (j & p & D1 & D2 & D3 & D4). exists j, p.
           split; [exact D1|]. split; [rewrite <- D2; exact (RR k _ D1)|]. split; [|exact D4].
           rewrite O. destruct (n_eq j (w_next w)) as [->|]; [exfalso|exact D3]. assert (obj w (w_next w) <> None) as L by congruence. apply H4 in L. lia.
      * intros h it A. destruct (G2 h it A) as [->|B]; [exists n; rewrite G; destruct (n_eq n n); congruence|].
        destruct (H9 h it B) as (m & Bm). exists m. rewrite G. destruct (n_eq m n) as [->|]; [cbn [w1 w_bucket] in *; congruence|exact Bm].
    + cbn [w_bucket]. rewrite G. destruct (n_eq n n); congruence.
    + cbn [w_bucket w_next]. split; [intros i Li; rewrite O; destruct (n_eq i (w_next w)); [lia|reflexivity]|]. split; [lia|].
      split; [intros h it A; destruct (G2 h it A) as [->|B]; [right; cbn; lia|auto]|].
      split; [intros m it A; rewrite G; destruct (n_eq m n) as [->|]; [congruence|exact A]|].
      split; [intros m Hm; rewrite G; destruct (n_eq m n) as [->|]; [congruence|reflexivity]|].
      intros m it _ A. exact (RR m it A).
Qed.

(** the object [id] with handle [n] refers to the files [ks] *)
Definition pending (kid : nat -> bool) (w : world) (X : nat -> Prop) (id n : nat) (ks : list nat) : Prop :=
  (exists o, obj w id = Some o /\ o_handle o = n /\ o_full o = true /\ counts (o_kids o) ks) /\
  kid n = false /\ X n /\ (forall m, named w m = Some (item_of id) -> m = n).

Fixpoint plus (cnt : nat -> Z) (ks : list nat) : nat -> Z := match ks with [] => cnt | k :: r => plus (plus1 cnt k) r end.

Lemma load_kids_R kid d : forall ks w op cnt X id n done, R kid w op cnt X -> pending kid w X id n done ->
  Forall (fun k => kid k = true /\ d k <> None) ks ->
  exists w', load_kids d w id ks = (w', FOk) /\ R kid w' op (plus cnt ks) X /\ pending kid w' X id n (done ++ ks) /\
    (forall m it, named w m = Some it -> named w' m = Some it) /\
    (forall m, kid m = false -> named w' m = named w m) /\
    (forall h it, iget (w_bucket w') h = Some it -> iget (w_bucket w) h = Some it \/ (w_next w < ikey it)%nat) /\
    (forall m it, kid m = false -> named w m = Some it -> refs w' (ikey it) = refs w (ikey it)).
Proof.
  induction ks as [|k ks IH]; intros w op cnt X id n done H (O & Kn & Xn & U) F; cbn [load_kids plus].
  - exists w. rewrite app_nil_r. split; [reflexivity|]. split; [exact H|]. split; [split; auto|]. auto.
  - pose proof (Forall_inv F) as (Kk & Dk). pose proof (Forall_inv_tail F) as F'.
    destruct (load_leaf_kid kid d w op cnt X k H Kk Dk) as (w1 & i & ko & E & H1 & O1 & O2 & N1 & P1 & P2 & P3 & P4 & P5 & P6). rewrite E.
    destruct O as (o & A1 & A2 & A3 & A4).
    assert (L : (id < w_next w)%nat) by (apply (r_ids _ _ _ _ _ H); congruence).
    rewrite (P1 id L), A1, O1, O2. cbv zeta.
    set (o' := Fobj (o_handle o) (o_full o) _).
    assert (U1 : forall m, named w1 m = Some (item_of id) -> m = n).
    { intros m A. destruct (P3 (HObj m) _ A) as [B|B]; [exact (U m B)|cbn in B; lia]. }
    assert (H2 : R kid (set_obj w1 id o') op (plus1 cnt k) X).
    { apply R_set; [exact H1|rewrite (P1 id L); congruence|]. intros m A. rewrite (U1 m A). auto. }
    destruct (IH (set_obj w1 id o') op (plus1 cnt k) X id n (done ++ [k]) H2) as (w' & E' & H' & Q1 & Q2 & Q3 & Q4 & Q5).
    { split; [|split; [exact Kn|split; [exact Xn|exact U1]]]. exists o'. split; [rewrite obj_set; destruct (n_eq id id); congruence|].
      split; [exact A2|]. split; [exact A3|]. apply counts_add. exact A4. }
    { exact F'. }
    exists w'. split; [exact E'|]. split; [exact H'|]. split; [rewrite <- app_assoc in Q1; exact Q1|]. cbn [set_obj w_bucket w_next] in *.
    split; [intros m it A; apply Q2, P4, A|]. split; [intros m Hm; rewrite Q3, P5; auto|]. split.
    + intros h it A. destruct (Q4 h it A) as [B|B]; [exact (P3 h it B)|right; lia].
    + intros m it Hm A. rewrite (Q5 m it Hm); [exact (P6 m it Hm A)|]. apply P4, A.
Qed.

(** ** unloading *)
Definition minus (cnt : nat -> Z) (k : nat) (c : Z) : nat -> Z := fun j => if n_eq j k then cnt j - c else cnt j.

Lemma len_pos b h it : Inv b -> iget b h = Some it -> Nat.eqb (bucket_len b) 0 = false.
Proof.
  intros I E. assert (K : hget b (ikey it) <> None) by (apply Inv_hget; eauto).
  pose proof (I it) as L. assert (Q : lget b (ikey it) <> None) by (intros A; apply (dom_l _ _ _ L) in A; contradiction).
  unfold bucket_len. destruct (b_lookup b); [cbn in Q; congruence|reflexivity].
Qed.

Lemma unload_self_spec kid w op cnt X n id r c : R kid w op cnt X -> named w n = Some (item_of id) -> refs w (S id) = Some r ->
  exists w', unload_self w id c = (w', FOk) /\ Inv (w_bucket w') /\ w_next w' = w_next w /\
    (forall i, obj w' i = obj (set_full w id false) i) /\
    (forall h, iget (w_bucket w') h = match iget (w_bucket w) h with
        | Some i => if r - c <=? 0 then (if k_eq (ikey i) (S id) then None else Some i) else Some i | None => None end) /\
    (forall m, named w' m = if n_eq m n then (if r - c <=? 0 then None else named w m) else named w m) /\
    (forall k, k <> S id -> refs w' k = refs w k) /\ (0 < r - c -> refs w' (S id) = Some (r - c)).
Proof.
  intros H E Er. pose proof (r_inv _ _ _ _ _ H) as I. unfold unload_self. cbv zeta.
  assert (B : w_bucket (set_full w id false) = w_bucket w) by (unfold set_full; destruct (obj w id); reflexivity).
  assert (Nx : w_next (set_full w id false) = w_next w) by (unfold set_full; destruct (obj w id); reflexivity).
  rewrite B, (len_pos _ _ _ I E).
  destruct (remove_ref (w_bucket w) (item_of id) r c (HObj n) I E Er) as (b' & Q & I' & G & R1 & R2). rewrite Q. cbn [res_of].
  eexists. split; [reflexivity|]. cbn [w_bucket w_next]. split; [exact I'|]. split; [exact Nx|]. split; [reflexivity|]. split; [exact G|]. split; [|split; assumption].
  intros m. rewrite G. destruct (n_eq m n) as [->|N].
  - rewrite E. destruct (r - c <=? 0); [|reflexivity]. destruct (k_eq _ _); [reflexivity|congruence].
  - destruct (named w m) as [i|] eqn:Em; [|reflexivity]. destruct (r - c <=? 0); [|reflexivity].
    destruct (r_own _ _ _ _ _ H m _ Em) as (j & p & -> & _). destruct (k_eq _ _) as [Ej|]; [|reflexivity].
    exfalso. apply N. cbn [item_of ikey] in Ej. injection Ej as ->. exact (R_inj _ _ _ _ _ _ _ _ H Em E).
Qed.

Lemma unload_leaf_R kid w op cnt X k id c : R kid w op cnt X -> kid k = true -> named w k = Some (item_of id) -> 0 < c <= cnt k ->
  exists w', unload_self w id c = (w', FOk) /\ R kid w' op (minus cnt k c) X /\
    (forall i, i <> id -> obj w' i = obj w i) /\
    (forall m, m <> k -> named w' m = named w m) /\
    (forall j, j <> S id -> refs w' j = refs w j) /\
    (forall m it, named w' m = Some it -> named w m = Some it).
Proof.
  intros H Kk E C. destruct (r_kid _ _ _ _ _ H k Kk) as (_ & _ & C2). destruct C2 as (id' & o & Q1 & Q2 & Q3 & Q4); [lia|].
  rewrite E in Q1. assert (id' = id) by (unfold item_of in Q1; congruence). subst id'.
  destruct (unload_self_spec kid w op cnt X k id (cnt k) c H E Q2) as (w' & E' & I' & Nx & Ob & G & Gn & R1 & R2).
  exists w'. split; [exact E'|].
  assert (Ob' : forall i, i <> id -> obj w' i = obj w i).
  { intros i N. rewrite Ob, obj_full. destruct (n_eq i id); [contradiction|]. destruct (obj w i); reflexivity. }
  split; [|split; [exact Ob'|split; [|split; [exact R1|]]]].
  - destruct H as [H1 H2 H3 H4 H5 H6 H7 H8 H9]. 
    assert (Hj : forall m j, m <> k -> named w m = Some (item_of j) -> j <> id).
    { intros m j N A ->. apply N. destruct (H2 m _ A) as (a & b & A1 & A2 & A3). destruct (H2 k _ E) as (a' & b' & B1 & B2 & B3).
      injection A1 as A1 _. injection B1 as B1 _. subst. congruence. }
    constructor; auto.
    + intros m it. rewrite Gn. destruct (n_eq m k) as [->|N].
      * destruct (cnt k - c <=? 0); [discriminate|]. intros A. destruct (H2 k it A) as (i & p & -> & B1 & B2).
        rewrite A in E. assert (i = id) by (unfold item_of in E; congruence). subst i. exists id, (Fobj (o_handle p) false (o_kids p)). split; [reflexivity|]. split; [|exact B2].
        rewrite Ob, obj_full, B1. destruct (n_eq id id); congruence.
      * intros A. destruct (H2 m it A) as (i & p & -> & B1 & B2). exists i, p. split; [reflexivity|]. split; [|exact B2].
        rewrite Ob'; [exact B1|]. exact (Hj m i N A).
    + intros h it. rewrite G, Nx. destruct (iget (w_bucket w) h) as [i|] eqn:A; [|discriminate].
      destruct (cnt k - c <=? 0); [destruct (k_eq _ _); [discriminate|]|]; intros [= <-]; exact (H3 h i A).
    + intros i. rewrite Ob, obj_full, Nx. destruct (obj w i) eqn:A; [|congruence]. intros _. apply H4. congruence.
    + intros m Hm. rewrite Gn. destruct (n_eq m k) as [->|]; [congruence|]. apply H5, Hm.
    + intros m ks Hin. destruct (H6 m ks Hin) as (B1 & B2 & B3 & j & p & D1 & D2 & D3). split; [exact B1|]. split; [exact B2|]. split; [exact B3|].
      exists j, p. rewrite Gn. destruct (n_eq m k) as [->|N]; [congruence|]. pose proof (Hj m j N D1) as Nj.
      split; [exact D1|]. rewrite R1 by congruence. split; [exact D2|]. rewrite Ob' by assumption. exact D3.
    + intros j Hk. destruct (H7 j Hk) as (B1 & B2 & B3). unfold minus. rewrite Gn. destruct (n_eq j k) as [->|N].
      * split; [lia|]. split.
        -- intros Z0. rewrite Z0. reflexivity.
        -- intros P. destruct (cnt k - c <=? 0) eqn:Eb; [lia|]. exists id, (Fobj (o_handle o) false (o_kids o)). split; [exact E|].
           split; [apply R2; lia|]. split; [|exact Q4]. rewrite Ob, obj_full, Q3. destruct (n_eq id id); congruence.
      * split; [exact B1|]. split; [exact B2|]. intros P. destruct (B3 P) as (i & p & D1 & D2 & D3 & D4). pose proof (Hj j i N D1) as Nj.
        exists i, p. split; [exact D1|]. rewrite R1 by congruence. split; [exact D2|]. rewrite Ob' by assumption. auto.
    + intros h it. rewrite G. destruct (iget (w_bucket w) h) as [i|] eqn:A; [|discriminate]. destruct (H9 h i A) as (m & B). intros Q.
      exists m. rewrite G, B. exact Q.
  - intros m N. rewrite Gn. destruct (n_eq m k); [contradiction|reflexivity].
  - intros m it. rewrite Gn. destruct (n_eq m k); [|auto]. destruct (_ <=? 0); [discriminate|auto].
Qed.

Definition less (cnt : nat -> Z) (kd : dict nat Z) : nat -> Z :=
  fun j => cnt j - match dget n_eq kd j with Some c => c | None => 0 end.

Lemma R_ext kid w op cnt cnt' X : R kid w op cnt X -> (forall k, cnt' k = cnt k) -> R kid w op cnt' X.
Proof.
  intros H E. destruct H as [H1 H2 H3 H4 H5 H6 H7 H8 H9]. constructor; auto. intros k Hk. rewrite E. apply H7, Hk.
Qed.

Lemma unload_kids_R kid : forall kd w op cnt X, R kid w op cnt X -> dwf kd ->
  Forall (fun p => kid (fst p) = true /\ 0 < snd p <= cnt (fst p)) kd ->
  exists w', unload_kids w kd = (w', FOk) /\ R kid w' op (less cnt kd) X /\
    (forall i n, kid n = false -> named w n = Some (item_of i) -> obj w' i = obj w i) /\
    (forall m, kid m = false -> named w' m = named w m) /\
    (forall i n, kid n = false -> named w n = Some (item_of i) -> refs w' (S i) = refs w (S i)) /\
    (forall m it, named w' m = Some it -> named w m = Some it).
Proof.
  induction kd as [|[k c] kd IH]; intros w op cnt X H W F; cbn [unload_kids].
  - exists w. split; [reflexivity|]. split; [|auto]. apply (R_ext _ _ _ cnt); [exact H|]. intros k. unfold less. cbn. lia.
  - pose proof (Forall_inv F) as (Kk & C). cbn [fst snd] in *. pose proof (Forall_inv_tail F) as F'.
    unfold dwf, dkeys in W. cbn [map fst] in W. apply NoDup_cons_iff in W. destruct W as [Wk W].
    destruct (r_kid _ _ _ _ _ H k Kk) as (_ & _ & C2). destruct C2 as (id & o & Q1 & Q2 & Q3 & Q4); [lia|].
    unfold get_file. change (lookup (w_bucket w) (HObj k)) with (named w k). rewrite Q1. cbn [id_of item_of ikey]. rewrite Q3.
    destruct o as [oh ofu ok]. cbn [o_kids] in Q4. subst ok. cbv iota.
    destruct (unload_leaf_R kid w op cnt X k id c H Kk Q1 C) as (w1 & E1 & H1 & P1 & P2 & P3 & P4). rewrite E1.
    destruct (IH w1 op (minus cnt k c) X H1 W) as (w' & E' & H' & S1 & S2 & S3 & S4).
    { rewrite Forall_forall in *. intros [j cj] Hin. destruct (F' _ Hin) as (A & B). cbn [fst snd] in *. split; [exact A|].
      unfold minus. destruct (n_eq j k) as [->|]; [|exact B]. exfalso. apply Wk. apply in_map_iff. exists (k, cj). auto. }
    assert (Ne : forall i n, kid n = false -> named w n = Some (item_of i) -> n <> k /\ i <> id).
    { intros i n Hn A. assert (n <> k) by congruence. split; [assumption|]. intros ->. apply H0. exact (R_inj _ _ _ _ _ _ _ _ H A Q1). }
    exists w'. split; [exact E'|]. split; [|split; [|split; [|split]]].
    + apply (R_ext _ _ _ _ _ _ H'). intros j. unfold less, minus. cbn [dget]. destruct (n_eq j k) as [->|]; [|lia].
      destruct (dget n_eq kd k) eqn:A; [|lia]. exfalso. apply Wk. exact (dget_key _ _ _ _ A).
    + intros i n Hn A. destruct (Ne i n Hn A) as (N1 & N2). rewrite (S1 i n Hn) by (rewrite P2; assumption). apply P1, N2.
    + intros m Hm. rewrite S2 by assumption. apply P2. congruence.
    + intros i n Hn A. destruct (Ne i n Hn A) as (N1 & N2). rewrite (S3 i n Hn) by (rewrite P2; assumption). apply P3. congruence.
    + intros m it A. apply P4, S4, A.
Qed.

(** a registered file that is on its own *)
Lemma unload_top_R kid w op cnt n id : R kid w op cnt (eq n) -> ~ In n (map fst op) -> kid n = false ->
  named w n = Some (item_of id) -> refs w (S id) = Some 1 ->
  exists w', unload_self w id 1 = (w', FOk) /\ R kid w' op cnt (fun _ => False) /\
    (forall m, m <> n -> named w' m = named w m) /\ (forall o, obj w id = Some o -> option_map o_full (obj w' id) = Some false).
Proof.
  intros H Nn Kn E Er. destruct (unload_self_spec kid w op cnt (eq n) n id 1 1 H E Er) as (w' & E' & I' & Nx & Ob & G & Gn & R1 & _).
  change (1 - 1 <=? 0) with true in *. cbv iota in *.
  exists w'. split; [exact E'|]. split; [|split; [intros m N; rewrite Gn; destruct (n_eq m n); [contradiction|reflexivity]|
    intros o Eo; rewrite Ob, obj_full, Eo; destruct (n_eq id id); [reflexivity|congruence]]].
  assert (Ob' : forall i, i <> id -> obj w' i = obj w i).
  { intros i N. rewrite Ob, obj_full. destruct (n_eq i id); [contradiction|]. destruct (obj w i); reflexivity. }
  assert (Hj : forall m j, m <> n -> named w m = Some (item_of j) -> j <> id).
  { intros m j N A ->. apply N. exact (R_inj _ _ _ _ _ _ _ _ H A E). }
  destruct H as [H1 H2 H3 H4 H5 H6 H7 H8 H9]. constructor; auto.
  - intros m it. rewrite Gn. destruct (n_eq m n) as [->|N]; [discriminate|].
    intros A. destruct (H2 m it A) as (i & p & -> & B1 & B2). exists i, p. split; [reflexivity|]. split; [|exact B2].
    rewrite Ob'; [exact B1|]. exact (Hj m i N A).
  - intros h it. rewrite G, Nx. destruct (iget (w_bucket w) h) as [i|] eqn:A; [|discriminate].
    destruct (k_eq _ _); [discriminate|]. intros [= <-]. exact (H3 h i A).
  - intros i. rewrite Ob, obj_full, Nx. destruct (obj w i) eqn:A; [|congruence]. intros _. apply H4. congruence.
  - intros m Hm. rewrite Gn. destruct (n_eq m n) as [->|N]; [congruence|]. intros A. destruct (H5 m Hm A) as [B|B]; [auto|congruence].
  - intros m ks Hin. destruct (H6 m ks Hin) as (B1 & B2 & B3 & j & p & D1 & D2 & D3). split; [exact B1|]. split; [tauto|]. split; [exact B3|].
    assert (N : m <> n) by congruence.
    exists j, p. rewrite Gn. destruct (n_eq m n) as [|_]; [contradiction|]. pose proof (Hj m j N D1) as Nj.
    split; [exact D1|]. rewrite R1 by congruence. split; [exact D2|]. rewrite Ob' by assumption. exact D3.
  - intros k Hk. assert (N : k <> n) by congruence. destruct (H7 k Hk) as (B1 & B2 & B3). rewrite Gn. destruct (n_eq k n) as [|_]; [contradiction|].
    split; [exact B1|]. split; [exact B2|]. intros P. destruct (B3 P) as (i & p & D1 & D2 & D3 & D4). pose proof (Hj k i N D1) as Nj.
    exists i, p. split; [exact D1|]. rewrite R1 by congruence. split; [exact D2|]. rewrite Ob' by assumption. auto.
  - intros h it. rewrite G. destruct (iget (w_bucket w) h) as [i|] eqn:A; [|discriminate]. destruct (H9 h i A) as (m & B). intros Q.
    exists m. rewrite G, B. exact Q.
Qed.

(** ** histories *)
Fixpoint uses (op : opened) (k : nat) : nat :=
  match op with [] => 0%nat | (_, ks) :: r => (count_occ n_eq ks k + uses r k)%nat end.
Lemma uses_mid op1 n ks op2 k : uses (op1 ++ (n, ks) :: op2) k = (count_occ n_eq ks k + uses (op1 ++ op2) k)%nat.
Proof. induction op1 as [|[m js] op1 IH]; cbn; [reflexivity|]. rewrite IH. lia. Qed.
Lemma plus_count ks : forall cnt k, plus cnt ks k = cnt k + Z.of_nat (count_occ n_eq ks k).
Proof.
  induction ks as [|j ks IH]; intros cnt k; cbn [plus count_occ]; [lia|]. rewrite IH. unfold plus1.
  destruct (n_eq k j), (n_eq j k); try congruence; lia.
Qed.
Definition RR (kid : nat -> bool) (w : world) (op : opened) : Prop := R kid w op (fun k => Z.of_nat (uses op k)) (fun _ => False).

(** taking an open file apart and putting it back *)
Lemma R_out kid w op1 n ks op2 cnt : R kid w (op1 ++ (n, ks) :: op2) cnt (fun _ => False) ->
  exists id, R kid w (op1 ++ op2) cnt (eq n) /\ pending kid w (eq n) id n ks /\ named w n = Some (item_of id) /\ refs w (S id) = Some 1 /\
    ~ In n (map fst (op1 ++ op2)) /\ Forall (fun k => kid k = true) ks.
Proof.
  intros H. assert (Nn : ~ In n (map fst (op1 ++ op2)) /\ NoDup (map fst (op1 ++ op2))).
  { pose proof (r_nd _ _ _ _ _ H) as D. rewrite map_app in D. cbn [map fst] in D. apply NoDup_remove in D. rewrite map_app. tauto. }
  destruct Nn as [Nn Nd].
  destruct (r_open _ _ _ _ _ H n ks) as (A1 & _ & A2 & id & o & B1 & B2 & B3 & B4 & B5); [apply in_elt|].
  exists id. split; [|split; [|split; [exact B1|split; [exact B2|split; [exact Nn|exact A2]]]]].
  - destruct H as [H1 H2 H3 H4 H5 H6 H7 H8 H9]. constructor; auto.
    + intros m Hm E. destruct (H5 m Hm E) as [F|[]]. rewrite map_app in *. cbn [map fst] in F. rewrite in_app_iff in *. cbn in F.
      destruct F as [F|[F|F]]; auto.
    + intros m js Hin. destruct (H6 m js) as (C1 & _ & C3); [rewrite in_app_iff in *; cbn; tauto|]. split; [exact C1|]. split; [|exact C3].
      intros ->. apply Nn. apply in_map_iff. exists (m, js). auto.
  - split; [|split; [exact A1|split; [reflexivity|]]].
    + exists o. split; [exact B3|]. split; [|auto]. destruct (r_own _ _ _ _ _ H n _ B1) as (i & p & C1 & C2 & C3).
      injection C1 as C1 _. subst i. congruence.
    + intros m Hm. exact (R_inj _ _ _ _ _ _ _ _ H Hm B1).
Qed.

Lemma R_in kid w op1 n ks op2 cnt id : R kid w (op1 ++ op2) cnt (eq n) -> pending kid w (eq n) id n ks ->
  named w n = Some (item_of id) -> refs w (S id) = Some 1 -> ~ In n (map fst (op1 ++ op2)) -> Forall (fun k => kid k = true) ks ->
  R kid w (op1 ++ (n, ks) :: op2) cnt (fun _ => False).
Proof.
  intros H ((o & O1 & O2 & O3 & O4) & Kn & _ & _) E Er Nn F. destruct H as [H1 H2 H3 H4 H5 H6 H7 H8 H9]. constructor; auto.
  - intros m Hm A. left. rewrite map_app. cbn [map fst]. rewrite in_app_iff. cbn.
    destruct (H5 m Hm A) as [B|B]; [|auto]. rewrite map_app, in_app_iff in B. tauto.
  - intros m js Hin. rewrite in_app_iff in Hin. cbn in Hin. assert (Hc : (m = n /\ js = ks) \/ In (m, js) (op1 ++ op2)).
    { rewrite in_app_iff. destruct Hin as [|[[= <- <-]|]]; auto. }
    destruct Hc as [[-> ->]|Hc].
    + split; [exact Kn|]. split; [tauto|]. split; [exact F|]. exists id, o. auto.
    + destruct (H6 m js Hc) as (C1 & _ & C3). auto.
  - rewrite map_app. cbn [map fst]. rewrite map_app in *. apply (NoDup_Add (a := n) (l := map fst op1 ++ map fst op2)); [apply Add_app|]. auto.
Qed.

(** ** each command *)
Lemma load_new_R kid d w op n ks : RR kid w op -> kid n = false -> ~ In n (map fst op) -> d n = Some ks ->
  Forall (fun k => kid k = true /\ d k <> None) ks ->
  exists w' id, load_file d w n = (w', Some id, FOk) /\ RR kid w' ((n, ks) :: op) /\ named w' n = Some (item_of id) /\
    (forall m it, named w m = Some it -> named w' m = Some it).
Proof.
  intros H Kn Nn Dn F. unfold load_file, get_file. change (lookup (w_bucket w) (HObj n)) with (named w n).
  destruct (named w n) as [it|] eqn:E.
  { exfalso. destruct (r_top _ _ _ _ _ H n Kn) as [A|[]]; [congruence|contradiction]. }
  rewrite Dn. unfold new_obj. cbv beta iota. set (w1 := World _ _ _).
  assert (Ob : forall i, obj w1 i = if n_eq i (w_next w) then Some (Fobj n true []) else obj w i) by (intros i; apply dget_dset).
  assert (Lo : forall id, obj w id <> None -> id <> w_next w).
  { intros i A ->. apply (r_ids _ _ _ _ _ H) in A. lia. }
  assert (H1 : R kid w1 op (fun k => Z.of_nat (uses op k)) (eq n)).
  { destruct H as [H1 H2 H3 H4 H5 H6 H7 H8 H9]. constructor; auto.
    - intros m it A. destruct (H2 m it A) as (i & o & -> & B1 & B2). exists i, o. split; [reflexivity|]. split; [|exact B2].
      rewrite Ob. destruct (n_eq i (w_next w)) as [->|]; [|exact B1]. exfalso. apply (Lo (w_next w)); congruence.
    - intros h it A. specialize (H3 h it A). cbn [w1 w_next]. lia.
    - intros i. rewrite Ob. cbn [w1 w_next]. destruct (n_eq i (w_next w)) as [->|]; [lia|]. intros A. apply H4 in A. lia.
    - intros m Hm A. destruct (H5 m Hm A) as [|[]]. auto.
    - intros m js Hin. destruct (H6 m js Hin) as (B1 & _ & B3 & i & o & D1 & D2 & D3 & D4). split; [exact B1|].
      split; [intros ->; apply Nn, in_map_iff; exists (m, js); auto|]. split; [exact B3|]. exists i, o. split; [exact D1|]. split; [exact D2|].
      split; [|exact D4]. rewrite Ob. destruct (n_eq i (w_next w)) as [->|]; [|exact D3]. exfalso. apply (Lo (w_next w)); congruence.
    - intros k Hk. destruct (H7 k Hk) as (B1 & B2 & B3). split; [exact B1|]. split; [exact B2|]. intros P.
      destruct (B3 P) as (i & o & D1 & D2 & D3 & D4). exists i, o. split; [exact D1|]. split; [exact D2|].
      split; [|exact D4]. rewrite Ob. destruct (n_eq i (w_next w)) as [->|]; [|exact D3]. exfalso. apply (Lo (w_next w)); congruence. }
  assert (P1 : pending kid w1 (eq n) (w_next w) n []).
  { split; [|split; [exact Kn|split; [reflexivity|]]].
    - exists (Fobj n true []). split; [rewrite Ob; destruct (n_eq _ _); congruence|]. split; [reflexivity|]. split; [reflexivity|apply counts_nil].
    - intros m A. apply (r_low _ _ _ _ _ H (HObj m)) in A. cbn in A. lia. }
  destruct (load_kids_R kid d ks w1 op _ (eq n) (w_next w) n [] H1 P1 F) as (w2 & E2 & H2 & P2 & Q1 & Q2 & Q3 & Q4). rewrite E2.
  assert (N2 : named w2 n = None) by (rewrite Q2; [exact E|exact Kn]).
  assert (F2 : forall h i, iget (w_bucket w2) h = Some i -> ikey i <> ikey (item_of (w_next w))).
  { intros h i A. destruct (Q3 h i A) as [B|B]; [|cbn [w1 w_next item_of ikey] in *; lia].
    pose proof (r_low _ _ _ _ _ H h i B). cbn [item_of ikey]. lia. }
  destruct (store_new w2 n (item_of (w_next w)) true false (r_inv _ _ _ _ _ H2) N2 F2) as (b' & E3 & I' & G & G2 & R1 & R2). rewrite E3.
  eexists _, (w_next w). split; [reflexivity|]. cbn [w_bucket].
  assert (Gn : iget b' (HObj n) = Some (item_of (w_next w))) by (rewrite G; destruct (n_eq n n); congruence).
  assert (Go : forall m it, named w2 m = Some it -> iget b' (HObj m) = Some it /\ rget b' (ikey it) = refs w2 (ikey it)).
  { intros m it A. assert (B : iget b' (HObj m) = Some it) by (rewrite G; destruct (n_eq m n) as [->|]; [congruence|exact A]).
    split; [exact B|]. apply R2; [exact (F2 _ _ A)|]. apply Inv_hget; [exact I'|eauto]. }
  split; [|split; [exact Gn|]].
  - unfold RR. apply (R_ext _ _ _ (plus (fun k => Z.of_nat (uses op k)) ks)).
    2:{ intros k. rewrite plus_count. cbn [uses]. lia. }
    apply (R_in kid _ [] n ks op _ (w_next w)); [|destruct P2 as (O & Kn' & _ & U)|exact Gn|exact R1|exact Nn|].
    + cbn [app]. destruct H2 as [A1 A2 A3 A4 A5 A6 A7 A8 A9]. constructor; auto.
      * intros m it. cbn [w_bucket]. rewrite G. destruct (n_eq m n) as [->|]; [|apply A2]. intros [= <-].
        destruct P2 as ((o & O1 & O2 & _) & _). exists (w_next w), o. auto.
      * intros h it A. cbn [w_bucket w_next] in *. destruct (G2 h it A) as [->|B]; [|exact (A3 h it B)]. cbn [item_of ikey].
        destruct P2 as ((o & O1 & _) & _). assert (w_next w < w_next w2)%nat by (apply A4; congruence). lia.
      * intros m Hm. cbn [w_bucket]. rewrite G. destruct (n_eq m n) as [->|]; [auto|apply A5, Hm].
      * intros m js Hin. destruct (A6 m js Hin) as (B1 & B2 & B3 & i & o & D1 & D2 & D3). split; [exact B1|]. split; [exact B2|]. split; [exact B3|].
        exists i, o. destruct (Go m _ D1) as (C1 & C2). cbn [w_bucket item_of ikey] in *. split; [exact C1|]. split; [congruence|exact D3].
      * intros k Hk. destruct (A7 k Hk) as (B1 & B2 & B3). cbn [w_bucket]. split; [exact B1|]. split.
        -- intros Z0. rewrite G. destruct (n_eq k n) as [->|]; [congruence|exact (B2 Z0)].
        -- intros P. destruct (B3 P) as (i & o & D1 & D2 & D3). exists i, o. destruct (Go k _ D1) as (C1 & C2). cbn [item_of ikey] in *.
           split; [exact C1|]. split; [congruence|exact D3].
      * intros h it A. cbn [w_bucket] in *. destruct (G2 h it A) as [->|B]; [exists n; exact Gn|].
        destruct (A9 h it B) as (m & Bm). exists m. apply (Go m it Bm).
    + split; [exact O|]. split; [exact Kn'|]. split; [reflexivity|]. intros m. cbn [w_bucket]. rewrite G. destruct (n_eq m n); [auto|apply U].
    + rewrite Forall_forall in *. intros k Hk. apply F, Hk.
  - intros m it A. destruct (Go m it) as (B & _); [apply Q1; exact A|exact B].
Qed.

Lemma load_known d w n it : Inv (w_bucket w) -> named w n = Some it ->
  exists w', load_file d w n = (w', id_of it, FOk) /\ w_objs w' = w_objs w /\ Inv (w_bucket w') /\ forall h, iget (w_bucket w') h = iget (w_bucket w) h.
Proof.
  intros H E. unfold load_file, get_file. change (lookup (w_bucket w) (HObj n)) with (named w n). rewrite E.
  destruct (store_known w n it true false H E) as (b' & S1 & I' & G & _). rewrite S1. eexists. split; [reflexivity|]. auto.
Qed.

Lemma load_again_R kid d w op n : RR kid w op -> In n (map fst op) ->
  exists w' id, load_file d w n = (w', Some id, FOk) /\ RR kid w' op /\ named w n = Some (item_of id) /\ (forall m, named w' m = named w m).
Proof.
  intros H Hin. apply in_map_iff in Hin. destruct Hin as ([n' ks] & E & Hin). cbn [fst] in E. subst n'.
  destruct (r_open _ _ _ _ _ H n ks Hin) as (A1 & _ & A3 & id & o & B1 & B2 & B3).
  unfold load_file, get_file. change (lookup (w_bucket w) (HObj n)) with (named w n). rewrite B1.
  destruct (store_known w n (item_of id) true false (r_inv _ _ _ _ _ H) B1) as (b' & S1 & I' & G & R1 & R2). rewrite S1.
  eexists _, id. split; [reflexivity|]. split; [|split; [reflexivity|intros m; apply G]].
  assert (Rq : forall m j, named w m = Some (item_of j) -> rget b' (S j) = refs w (S j)).
  { intros m j A. destruct (n_eq j id) as [->|N]; [rewrite B2; apply R2, B2|]. apply R1; [cbn; congruence|]. apply Inv_hget; [exact I'|].
    exists (HObj m), (item_of j). rewrite G. auto. }
  destruct H as [H1 H2 H3 H4 H5 H6 H7 H8 H9]. constructor; cbn [w_bucket w_next]; auto.
  - intros m it. rewrite G. apply H2.
  - intros h it. rewrite G. apply H3.
  - intros m. rewrite G. apply H5.
  - intros m js Hj. destruct (H6 m js Hj) as (C1 & C2 & C3 & i & p & D1 & D2 & D3). split; [exact C1|]. split; [exact C2|]. split; [exact C3|].
    exists i, p. rewrite G, (Rq m i D1). auto.
  - intros k Hk. rewrite G. destruct (H7 k Hk) as (C1 & C2 & C3). split; [exact C1|]. split; [exact C2|]. intros P.
    destruct (C3 P) as (i & p & D1 & D2 & D3). exists i, p. rewrite (Rq k i D1). auto.
  - intros h it A. rewrite G in A. destruct (H9 h it A) as (m & B). exists m. rewrite G. exact B.
Qed.

Lemma unload_R kid w op1 n ks op2 : RR kid w (op1 ++ (n, ks) :: op2) ->
  exists w', unload_file w n = (w', FOk) /\ RR kid w' (op1 ++ op2) /\ (forall m it, named w' m = Some it -> named w m = Some it) /\
    exists id, named w n = Some (item_of id) /\ option_map o_full (obj w' id) = Some false.
Proof.
  intros H. destruct (R_out _ _ _ _ _ _ _ H) as (id & H1 & ((o & O1 & O2 & O3 & O4) & Kn & _ & U) & E & Er & Nn & Fk).
  unfold unload_file, get_file. change (lookup (w_bucket w) (HObj n)) with (named w n). rewrite E. cbn [id_of item_of ikey].
  unfold unload. rewrite O1. destruct O4 as [Ow Oc].
  destruct (unload_kids_R kid (o_kids o) w _ _ _ H1 Ow) as (w1 & E1 & H1' & P1 & P2 & P3 & P4).
  { rewrite Forall_forall. intros [k c] Hin. cbn [fst snd]. pose proof (dget_wf_In n_eq _ _ _ Ow Hin) as G. rewrite Oc in G.
    destruct (Nat.eqb_spec (count_occ n_eq ks k) 0) as [|N]; [discriminate|]. injection G as <-. split.
    - rewrite Forall_forall in Fk. apply Fk. apply (count_occ_In n_eq). lia.
    - rewrite uses_mid. lia. }
  rewrite E1.
  destruct (unload_top_R kid w1 _ _ n id H1' Nn Kn) as (w' & E' & H' & Q & Q').
  { rewrite P2; assumption. }
  { rewrite (P3 id n Kn E). exact Er. }
  exists w'. split; [exact E'|]. split; [|split; [|exists id; split; [reflexivity|apply (Q' o); rewrite (P1 id n Kn E); exact O1]]].
  - apply (R_ext _ _ _ _ _ _ H'). intros k. unfold less. rewrite Oc, uses_mid. destruct (Nat.eqb_spec (count_occ n_eq ks k) 0); lia.
  - intros m it A. destruct (n_eq m n) as [->|N].
    + exfalso. destruct (r_top _ _ _ _ _ H' n Kn) as [B|[]]; [congruence|contradiction].
    + rewrite Q in A by assumption. apply P4, A.
Qed.

Lemma reload_kids_R kid d : forall kd w op cnt X, R kid w op cnt X -> Forall (fun p => kid (fst p) = true /\ 0 < cnt (fst p) /\ d (fst p) <> None) kd ->
  exists w', reload_kids d w kd = (w', FOk) /\ R kid w' op cnt X /\ w_bucket w' = w_bucket w /\
    (forall i n, kid n = false -> named w n = Some (item_of i) -> obj w' i = obj w i).
Proof.
  induction kd as [|[k c] kd IH]; intros w op cnt X H F; cbn [reload_kids].
  - exists w. auto.
  - pose proof (Forall_inv F) as (Kk & C & D). cbn [fst] in *. pose proof (Forall_inv_tail F) as F'.
    destruct (r_kid _ _ _ _ _ H k Kk) as (_ & _ & C2). destruct (C2 C) as (id & o & Q1 & Q2 & Q3 & Q4).
    unfold get_file. change (lookup (w_bucket w) (HObj k)) with (named w k). rewrite Q1. cbn [id_of item_of ikey].
    unfold reload_leaf. rewrite Q3. destruct (r_own _ _ _ _ _ H k _ Q1) as (i & p & A1 & A2 & A3). injection A1 as A1 _. subst i.
    assert (p = o) by congruence. subst p. rewrite A3. destruct (d k) eqn:Dk; [|congruence].
    assert (B : w_bucket (set_full w id true) = w_bucket w) by (unfold set_full; rewrite Q3; reflexivity).
    destruct (IH (set_full w id true) op cnt X) as (w' & E' & H' & P1 & P2); [apply R_full; [exact H|discriminate]|exact F'|].
    exists w'. split; [exact E'|]. split; [exact H'|]. split; [congruence|]. intros i n Hn A. rewrite (P2 i n Hn) by (rewrite B; exact A).
    rewrite obj_full. destruct (obj w i) eqn:Eo; [|reflexivity]. destruct (n_eq i id) as [->|]; [|reflexivity].
    exfalso. assert (n = k) by exact (R_inj _ _ _ _ _ _ _ _ H A Q1). congruence.
Qed.

Lemma reload_R kid d w op1 n ks op2 ks' : RR kid w (op1 ++ (n, ks) :: op2) -> d n = Some ks' ->
  Forall (fun k => kid k = true /\ d k <> None) ks' -> Forall (fun k => d k <> None) ks ->
  exists w', reload_file d w n = (w', FOk) /\ RR kid w' (op1 ++ (n, ks ++ ks') :: op2) /\ (forall m it, named w m = Some it -> named w' m = Some it).
Proof.
  intros H Dn F F0. destruct (R_out _ _ _ _ _ _ _ H) as (id & H1 & ((o & O1 & O2 & O3 & O4) & Kn & _ & U) & E & Er & Nn & Fk).
  unfold reload_file, get_file. change (lookup (w_bucket w) (HObj n)) with (named w n). rewrite E. cbn [id_of item_of ikey].
  unfold reload. rewrite O1. destruct O4 as [Ow Oc].
  destruct (reload_kids_R kid d (o_kids o) w _ _ _ H1) as (w1 & E1 & H1' & P1 & P2).
  { rewrite Forall_forall. intros [k c] Hin. cbn [fst]. pose proof (dget_wf_In n_eq _ _ _ Ow Hin) as G. rewrite Oc in G.
    destruct (Nat.eqb_spec (count_occ n_eq ks k) 0) as [|N]; [discriminate|]. assert (Hk : In k ks) by (apply (count_occ_In n_eq); lia).
    rewrite Forall_forall in Fk, F0. split; [exact (Fk k Hk)|]. split; [rewrite uses_mid; lia|exact (F0 k Hk)]. }
  rewrite E1, O2, Dn.
  assert (B : w_bucket (set_full w1 id true) = w_bucket w) by (rewrite <- P1; unfold set_full; destruct (obj w1 id); reflexivity).
  pose proof (R_full kid w1 _ _ _ id true H1' ltac:(discriminate)) as H2.
  destruct (load_kids_R kid d ks' (set_full w1 id true) _ _ (eq n) id n ks H2) as (w' & E' & H' & P' & Q1 & Q2 & Q3 & Q4); [|exact F|].
  { split; [|split; [exact Kn|split; [reflexivity|rewrite B; exact U]]]. exists (Fobj n true (o_kids o)).
    split; [rewrite obj_full, (P2 id n Kn E), O1; destruct (n_eq id id); congruence|]. split; [reflexivity|]. split; [reflexivity|split; assumption]. }
  exists w'. rewrite B in *. split; [exact E'|]. split; [|exact Q1].
  unfold RR. apply (R_ext _ _ _ (plus (fun k => Z.of_nat (uses (op1 ++ (n, ks) :: op2) k)) ks')).
  2:{ intros k. rewrite plus_count, !uses_mid, count_occ_app. lia. }
  apply (R_in kid w' op1 n (ks ++ ks') op2 _ id); [exact H'|exact P'|apply Q1, E| |exact Nn|].
  - change (refs w' (ikey (item_of id)) = Some 1). rewrite (Q4 n (item_of id) Kn E). exact Er.
  - apply Forall_app. split; [exact Fk|]. rewrite Forall_forall in *. intros k Hk. apply F, Hk.
Qed.

(** ** unloading everything *)
Record V (kid : nat -> bool) (w : world) : Prop := {
  v_inv : Inv (w_bucket w);
  v_kid : forall k it, kid k = true -> named w k = Some it -> exists id o, it = item_of id /\ obj w id = Some o /\ o_kids o = [];
  v_int : forall h it, iget (w_bucket w) h = Some it -> exists id, it = item_of id
}.

Lemma keep_full w id b i o : obj w i = Some o -> exists o', obj (set_full w id b) i = Some o' /\ o_kids o' = o_kids o.
Proof. intros E. rewrite obj_full, E. eexists. split; [reflexivity|]. destruct (n_eq i id); reflexivity. Qed.

Lemma unload_self_V kid w id n : V kid w -> exists w' e, unload_self w id n = (w', e) /\ (e = FOk \/ e = FKeyError) /\ V kid w' /\ w_next w' = w_next w /\
  (forall i, obj w i = None -> obj w' i = None) /\
  (forall i o, obj w i = Some o -> exists o', obj w' i = Some o' /\ o_kids o' = o_kids o).
Proof.
  intros [I K T]. unfold unload_self. cbv zeta.
  assert (B : w_bucket (set_full w id false) = w_bucket w) by (unfold set_full; destruct (obj w id); reflexivity).
  assert (Nx : w_next (set_full w id false) = w_next w) by (unfold set_full; destruct (obj w id); reflexivity).
  assert (Ob : forall i, obj w i = None -> obj (set_full w id false) i = None) by (intros i A; rewrite obj_full, A; reflexivity).
  assert (V0 : V kid (set_full w id false)).
  { constructor; rewrite ?B; auto. intros k it Hk A. destruct (K k it Hk A) as (i & o & -> & A2 & A3).
    destruct (keep_full w id false i o A2) as (o' & C1 & C2). exists i, o'. split; [reflexivity|]. split; [exact C1|congruence]. }
  destruct (Nat.eqb _ 0).
  { eexists _, _. split; [reflexivity|]. split; [auto|]. split; [exact V0|]. split; [exact Nx|]. split; [exact Ob|]. intros i o. apply keep_full. }
  rewrite B. destruct (rget (w_bucket w) (S id)) as [r|] eqn:Er.
  - assert (Hh : hget (w_bucket w) (S id) <> None) by (apply Inv_rget; [exact I|congruence]). apply Inv_hget in Hh; [|exact I].
    destruct Hh as (h0 & it & A1 & A2). destruct (T h0 it A1) as (id' & ->). cbn [item_of ikey] in A2. injection A2 as ->.
    destruct (remove_ref (w_bucket w) (item_of id) r n h0 I A1 Er) as (b' & Q & I' & G & _). rewrite Q. eexists _, _. split; [reflexivity|].
    split; [auto|]. split; [|split; [exact Nx|split; [exact Ob|intros i o; apply keep_full]]].
    assert (Gs : forall h it, iget b' h = Some it -> iget (w_bucket w) h = Some it).
    { intros h it. rewrite G. destruct (iget (w_bucket w) h); [|discriminate]. destruct (_ <=? 0); [destruct (k_eq _ _)|]; congruence. }
    constructor; cbn [w_bucket]; auto.
    + intros k it Hk A. apply (v_kid _ _ V0 k it Hk). rewrite B. apply Gs, A.
    + intros h it A. exact (T h it (Gs h it A)).
  - unfold remove_reference. cbn [item_of ikey]. rewrite Er. cbn [res_of]. eexists _, _. split; [reflexivity|]. split; [auto|].
    split; [destruct V0 as [V1 V2 V3]; rewrite B in *; constructor; auto|split; [exact Nx|split; [exact Ob|intros i o; apply keep_full]]].
Qed.

Lemma unload_kids_V kid : forall kd w, V kid w -> Forall (fun p => kid (fst p) = true) kd ->
  exists w' e, unload_kids w kd = (w', e) /\ (e = FOk \/ e = FKeyError) /\ V kid w' /\ w_next w' = w_next w /\
  (forall i, obj w i = None -> obj w' i = None) /\ (forall i o, obj w i = Some o -> exists o', obj w' i = Some o' /\ o_kids o' = o_kids o).
Proof.
  induction kd as [|[k c] kd IH]; intros w H F; cbn [unload_kids].
  - exists w, FOk. split; [reflexivity|]. split; [auto|]. split; [exact H|]. split; [reflexivity|]. split; [auto|]. eauto.
  - pose proof (Forall_inv F) as Kk. cbn [fst] in Kk. apply Forall_inv_tail in F.
    unfold get_file. change (lookup (w_bucket w) (HObj k)) with (named w k). destruct (named w k) as [it|] eqn:E.
    + destruct (v_kid _ _ H k it Kk E) as (id & o & -> & A1 & A2). cbn [id_of item_of ikey]. rewrite A1. destruct o as [oh ofu ok]. cbn [o_kids] in A2. subst ok.
      cbv iota. destruct (unload_self_V kid w id c H) as (w1 & e & E1 & [-> | ->] & H1 & N1 & O1 & O2); rewrite E1.
      * destruct (IH w1 H1 F) as (w' & e & E' & He & H' & N' & O1' & O2'). exists w', e. split; [exact E'|]. split; [exact He|]. split; [exact H'|].
        split; [congruence|]. split; [auto|]. intros i o A. destruct (O2 i o A) as (o1 & B1 & B2). destruct (O2' i o1 B1) as (o2 & C1 & C2).
        exists o2. split; [exact C1|congruence].
      * exists w1, FKeyError. auto 7.
    + exists w, FKeyError. split; [reflexivity|]. split; [auto|]. split; [exact H|]. split; [reflexivity|]. split; [auto|]. eauto.
Qed.

Lemma unload_each_V kid : forall its w, V kid w ->
  Forall (fun it => exists id, id_of it = Some id /\ forall o, obj w id = Some o -> Forall (fun p => kid (fst p) = true) (o_kids o)) its ->
  exists w', unload_each w its = (w', FOk) /\ V kid w' /\ w_next w' = w_next w /\ (forall i, obj w i = None -> obj w' i = None).
Proof.
  induction its as [|it its IH]; intros w H F; cbn [unload_each].
  - exists w. auto.
  - destruct (Forall_inv F) as (id & Ei & A). apply Forall_inv_tail in F. rewrite Ei. cbv iota. unfold unload.
    match goal with |- context [unload_kids w ?k] => set (kd := k) end.
    destruct (unload_kids_V kid kd w H) as (w1 & e & E1 & He & H1 & N1 & O1 & O2).
    { subst kd. destruct (obj w id) as [o|]; [apply A; reflexivity|constructor]. }
    rewrite E1.
    assert (Fw : forall w2 : world, (forall i, obj w i = None -> obj w2 i = None) -> (forall i o, obj w i = Some o -> exists o', obj w2 i = Some o' /\ o_kids o' = o_kids o) ->
       Forall (fun it => exists id, id_of it = Some id /\ forall o, obj w2 id = Some o -> Forall (fun p => kid (fst p) = true) (o_kids o)) its).
    { intros w2 P1 P2. rewrite Forall_forall in *. intros x Hx. destruct (F x Hx) as (j & Ex & B). exists j. split; [exact Ex|].
      intros o Ho. destruct (obj w j) as [o1|] eqn:Ej; [|rewrite P1 in Ho by assumption; discriminate].
      destruct (P2 j o1 Ej) as (o' & C1 & C2). rewrite C1 in Ho. injection Ho as <-. rewrite C2. apply B. reflexivity. }
    destruct He as [-> | ->].
    + destruct (unload_self_V kid w1 id 1 H1) as (w2 & e & E2 & He & H2 & N2 & O3 & O4). rewrite E2.
      destruct (IH w2 H2) as (w' & E' & H' & N' & O').
      { apply Fw; [auto|]. intros i o B. destruct (O2 i o B) as (o1 & B1 & B2). destruct (O4 i o1 B1) as (o2 & C1 & C2). exists o2. split; [exact C1|congruence]. }
      exists w'. split; [destruct He as [-> | ->]; exact E'|]. split; [exact H'|]. split; [congruence|auto].
    + destruct (IH w1 H1 (Fw w1 O1 O2)) as (w' & E' & H' & N' & O'). exists w'. split; [exact E'|]. split; [exact H'|]. split; [congruence|auto].
Qed.

Lemma unload_all_R kid w op : RR kid w op -> exists w', unload_all_files w = (w', FOk) /\ RR kid w' [] /\ forall h, iget (w_bucket w') h = None.
Proof.
  intros H. unfold unload_all_files.
  assert (K : forall k it, kid k = true -> named w k = Some it -> exists id o, it = item_of id /\ obj w id = Some o /\ o_kids o = []).
  { intros k it Hk A. destruct (r_kid _ _ _ _ _ H k Hk) as (C0 & C1 & C2). destruct (Z.eq_dec (Z.of_nat (uses op k)) 0) as [Z0|Z0].
    - rewrite (C1 Z0) in A. discriminate.
    - destruct C2 as (id & o & D1 & D2 & D3 & D4); [lia|]. exists id, o. split; [congruence|auto]. }
  destruct (unload_each_V kid (dvals (b_lookup (w_bucket w))) w) as (w' & E & H' & N' & O').
  - constructor; [exact (r_inv _ _ _ _ _ H)|exact K|]. intros h it A. destruct (r_int _ _ _ _ _ H h it A) as (n & B).
    destruct (r_own _ _ _ _ _ H n it B) as (id & _ & -> & _). eauto.
  - rewrite Forall_forall. intros it Hin. unfold dvals in Hin. apply in_map_iff in Hin. destruct Hin as ([k i] & Q & Hin). cbn [snd] in Q. subst i.
    pose proof (r_inv _ _ _ _ _ H it) as L. pose proof (dget_wf_In k_eq _ _ _ (wf_l _ _ _ L) Hin) as G. pose proof (l_key _ _ _ L _ _ G) as Ek.
    assert (Hh : hget (w_bucket w) k <> None) by (intros A; apply (dom_l _ _ _ L) in A; congruence).
    apply Inv_hget in Hh; [|exact (r_inv _ _ _ _ _ H)]. destruct Hh as (h & it' & A1 & A2). destruct (r_int _ _ _ _ _ H h it' A1) as (n & B).
    destruct (r_own _ _ _ _ _ H n it' B) as (id & o & -> & C1 & C2). exists id. split.
    { unfold id_of. rewrite Ek, <- A2. reflexivity. }
    intros o' Ho. assert (o' = o) by congruence. subst o'. destruct (kid n) eqn:Kn.
    + destruct (K n _ Kn B) as (j & p & D1 & D2 & D3). injection D1 as D1 _. subst j. assert (p = o) by congruence. subst p. rewrite D3. constructor.
    + destruct (r_top _ _ _ _ _ H n Kn) as [F|[]]; [congruence|]. apply in_map_iff in F. destruct F as ([n' ks] & Q & F). cbn [fst] in Q. subst n'.
      destruct (r_open _ _ _ _ _ H n ks F) as (_ & _ & P1 & j & p & D1 & _ & D3 & _ & Dw & Dc). rewrite B in D1. injection D1 as D1 _. subst j.
      assert (p = o) by congruence. subst p. rewrite Forall_forall. intros [k' c] Hk. cbn [fst]. pose proof (dget_wf_In n_eq _ _ _ Dw Hk) as Gk.
      rewrite Dc in Gk. destruct (Nat.eqb_spec (count_occ n_eq ks k') 0); [discriminate|]. rewrite Forall_forall in P1. apply P1, (count_occ_In n_eq). lia.
  - rewrite E. eexists. split; [reflexivity|]. cbn [w_bucket remove_all_items b_items].
    split; [|reflexivity]. constructor; cbn [w_bucket remove_all_items b_items w_next dget map]; try discriminate; try congruence.
    + apply Inv_empty.
    + intros i A. rewrite N'. apply (r_ids _ _ _ _ _ H). intros B. apply A. exact (O' i B).
    + intros n ks [].
    + intros k _. cbn [uses]. split; [lia|]. split; [reflexivity|lia].
    + constructor.
Qed.
