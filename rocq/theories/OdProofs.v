(** Proofs for the OrderedDict backport. *)
From Verif Require Import OdModel OdSpec.
From Coq Require Import Permutation.

Section P.
Context {K V : Type} (K_eq : forall a b : K, {a = b} + {a <> b}).
Implicit Types (h : nat -> link K) (s : od K V).

(** links p -> l -> q, in both directions *)
Fixpoint seg h (p : nat) (l : list nat) (q : nat) : Prop :=
  match l with
  | [] => lnext (h p) = q /\ lprev (h q) = p
  | a :: l' => lnext (h p) = a /\ lprev (h a) = p /\ seg h a l' q
  end.

Lemma seg_app h p l1 a l2 q : seg h p (l1 ++ a :: l2) q <-> seg h p l1 a /\ seg h a l2 q.
Proof.
  revert p. induction l1 as [|b l1 IH]; intros p; cbn.
  - tauto.
  - rewrite IH. tauto.
Qed.

Lemma seg_ext h h' p l q :
  (forall x, In x (p :: l) -> lnext (h' x) = lnext (h x)) ->
  (forall x, In x (l ++ [q]) -> lprev (h' x) = lprev (h x)) ->
  seg h p l q -> seg h' p l q.
Proof.
  revert p. induction l as [|a l IH]; intros p Hn Hp; cbn.
  - intros [H1 H2]. rewrite (Hn p), (Hp q); cbn; auto.
  - intros (H1 & H2 & H3). rewrite (Hn p), (Hp a) by (cbn; auto). repeat split; auto.
    apply IH; auto.
    + intros x Hx. apply Hn. now right.
    + intros x Hx. apply Hp. now right.
Qed.

Lemma last_cons_default {A} (a : A) l d : last (a :: l) d = last l a.
Proof.
  revert a d. induction l as [|b l IH]; intros a d; [reflexivity|].
  change (last (a :: b :: l) d) with (last (b :: l) d). now rewrite !IH.
Qed.
Lemma last_in {A} (l : list A) d : In (last l d) (d :: l).
Proof.
  revert d. induction l as [|a l IH]; intros d; [now left|].
  rewrite last_cons_default. right. apply IH.
Qed.

Lemma seg_retarget h h' p l a b :
  NoDup (p :: l) ->
  (forall x, In x (p :: l) -> x <> last l p -> lnext (h' x) = lnext (h x)) ->
  (forall x, In x l -> lprev (h' x) = lprev (h x)) ->
  lnext (h' (last l p)) = b -> lprev (h' b) = last l p ->
  seg h p l a -> seg h' p l b.
Proof.
  revert p. induction l as [|c l IH]; intros p Hnd Hn Hp Hb1 Hb2 Hs.
  - cbn in *. auto.
  - rewrite last_cons_default in *. cbn in Hs |- *. destruct Hs as (H1 & H2 & H3).
    apply NoDup_cons_iff in Hnd. destruct Hnd as [Hni Hnd].
    rewrite (Hn p), (Hp c); cbn; auto.
    2:{ intros ->. apply Hni. apply last_in. }
    repeat split; auto. apply IH; auto.
    + intros x Hx. apply Hn. now right.
    + intros x Hx. apply Hp. now right.
Qed.

Lemma seg_last h p l q : seg h p l q -> lprev (h q) = last l p.
Proof.
  revert p. induction l as [|a l IH]; intros p; cbn [seg]; [tauto|].
  intros (_ & _ & H). rewrite last_cons_default. now apply IH.
Qed.
Lemma seg_first h p l q : seg h p l q -> lnext (h p) = hd q l.
Proof. destruct l; cbn; tauto. Qed.

Lemma next_set_next h a x b : lnext (set_next h a x b) = if Nat.eqb b a then x else lnext (h b).
Proof. unfold set_next. now destruct (Nat.eqb b a). Qed.
Lemma next_set_prev h a x b : lnext (set_prev h a x b) = lnext (h b).
Proof. unfold set_prev. now destruct (Nat.eqb b a). Qed.
Lemma prev_set_next h a x b : lprev (set_next h a x b) = lprev (h b).
Proof. unfold set_next. now destruct (Nat.eqb b a). Qed.
Lemma prev_set_prev h a x b : lprev (set_prev h a x b) = if Nat.eqb b a then x else lprev (h b).
Proof. unfold set_prev. now destruct (Nat.eqb b a). Qed.
Lemma key_set_next h a x b : lkey (set_next h a x b) = lkey (h b).
Proof. unfold set_next. now destruct (Nat.eqb b a). Qed.
Lemma key_set_prev h a x b : lkey (set_prev h a x b) = lkey (h b).
Proof. unfold set_prev. now destruct (Nat.eqb b a). Qed.

Definition unlink h (a : nat) : nat -> link K :=
  set_prev (set_next h (lprev (h a)) (lnext (h a))) (lnext (h a)) (lprev (h a)).

Lemma hd_in {A} (l : list A) d : In (hd d l) (d :: l).
Proof. destruct l; cbn; auto. Qed.

Lemma seg_unlink h r l1 a l2 :
  NoDup (r :: l1 ++ a :: l2) -> seg h r (l1 ++ a :: l2) r -> seg (unlink h a) r (l1 ++ l2) r.
Proof.
  intros Hnd Hs. apply seg_app in Hs. destruct Hs as [Hs1 Hs2].
  pose proof (seg_last _ _ _ _ Hs1) as Hp. pose proof (seg_first _ _ _ _ Hs2) as Hn.
  apply NoDup_cons_iff in Hnd. destruct Hnd as [Hr Hnd].
  pose proof (NoDup_remove_1 _ _ _ Hnd) as Hnd12. pose proof (NoDup_remove_2 _ _ _ Hnd) as Ha.
  rewrite in_app_iff in Hr, Ha. cbn in Hr.
  assert (Hnd1 : NoDup l1).
  { clear - Hnd12. induction l1; [constructor|]. cbn in Hnd12. apply NoDup_cons_iff in Hnd12.
    destruct Hnd12 as [H1 H2]. constructor; auto. intros Hi. apply H1. apply in_app_iff. auto. }
  assert (Hdis : forall x, In x l1 -> In x l2 -> False).
  { clear - Hnd12. induction l1 as [|b l1 IH]; cbn in *; [tauto|]. apply NoDup_cons_iff in Hnd12.
    destruct Hnd12 as [H1 H2]. intros x [->|Hx] Hx2; [apply H1; apply in_app_iff; auto|eauto]. }
  pose proof (last_in l1 r) as Hli.
  assert (Hne : forall x y, x <> y -> Nat.eqb x y = false) by (intros; now apply Nat.eqb_neq).
  destruct l2 as [|c l2]; cbn [hd] in Hn.
  - rewrite app_nil_r. apply (seg_retarget h _ _ _ a r); auto; unfold unlink; rewrite ?Hp, ?Hn.
    + constructor; tauto.
    + intros x Hx Hxl. rewrite next_set_prev, next_set_next, Hne by exact Hxl. reflexivity.
    + intros x Hx. rewrite prev_set_prev, prev_set_next, Hne; [reflexivity|]. intros ->. tauto.
    + now rewrite next_set_prev, next_set_next, Nat.eqb_refl.
    + now rewrite prev_set_prev, Nat.eqb_refl.
  - apply seg_app. cbn in Hs2. destruct Hs2 as (_ & _ & Hs2). split.
    + apply (seg_retarget h _ _ _ a c); auto; unfold unlink; rewrite ?Hp, ?Hn.
      * constructor; tauto.
      * intros x Hx Hxl. rewrite next_set_prev, next_set_next, Hne by exact Hxl. reflexivity.
      * intros x Hx. rewrite prev_set_prev, prev_set_next, Hne; [reflexivity|]. intros ->.
        apply (Hdis c Hx). now left.
      * now rewrite next_set_prev, next_set_next, Nat.eqb_refl.
      * now rewrite prev_set_prev, Nat.eqb_refl.
    + apply (seg_ext h); [| |exact Hs2]; unfold unlink; rewrite ?Hp, ?Hn.
      * intros x Hx. rewrite next_set_prev, next_set_next, Hne; [reflexivity|]. intros ->.
        destruct Hli as [E|Hli].
        -- rewrite <- E in Hx. apply Hr. right. right. exact Hx.
        -- exact (Hdis _ Hli Hx).
      * intros x Hx. rewrite prev_set_prev, prev_set_next, Hne; [reflexivity|]. intros ->.
        apply in_app_iff in Hx. destruct Hx as [Hx|[<-|[]]].
        -- assert (Hc : NoDup (c :: l2)).
           { clear - Hnd12. induction l1; [exact Hnd12|]. apply IHl1. cbn in Hnd12. now apply NoDup_cons_iff in Hnd12. }
           apply NoDup_cons_iff in Hc. tauto.
        -- apply Hr. right. right. now left.
Qed.

(** ** the representation invariant: [t] lists address, key and value *)
Notation cell := (nat * (K * V))%type.
Definition repr s (t : list cell) : Prop :=
  NoDup (root :: map fst t) /\
  (forall a, In a (root :: map fst t) -> a < fresh s) /\
  seg (heap s) root (map fst t) root /\
  (forall a k v, In (a, (k, v)) t -> lkey (heap s a) = Some k) /\
  NoDup (map fst (map snd t)) /\
  dwf (kmap s) /\ dwf (data s) /\
  (forall k a, dget K_eq (kmap s) k = Some a <-> exists v, In (a, (k, v)) t) /\
  (forall k v, dget K_eq (data s) k = Some v <-> exists a, In (a, (k, v)) t).

Definition R s (l : list (K * V)) : Prop := exists t, map snd t = l /\ repr s t.

Lemma has_iff (l : list (K * V)) k : has K_eq l k = true <-> In k (map fst l).
Proof.
  unfold has. rewrite existsb_exists, in_map_iff. split; intros ([k' v] & H1 & H2).
  - exists (k', v). cbn in H2. destruct (K_eq k' k); [auto|discriminate].
  - exists (k', v). cbn in H1 |- *. split; [exact H2|]. destruct (K_eq k' k); [reflexivity|contradiction].
Qed.
Lemma has_false (l : list (K * V)) k : has K_eq l k = false <-> ~ In k (map fst l).
Proof. rewrite <- has_iff. destruct (has K_eq l k); split; intros; congruence. Qed.
Lemma lookup_iff (l : list (K * V)) k v : NoDup (map fst l) -> lookup K_eq l k = Some v <-> In (k, v) l.
Proof.
  unfold lookup. induction l as [|[k0 v0] l IH]; intros Hnd; cbn [find].
  - cbn. split; [discriminate|tauto].
  - cbn in Hnd. apply NoDup_cons_iff in Hnd. destruct Hnd as [Hni Hnd]. cbn [fst].
    destruct (K_eq k0 k) as [->|Hn]; cbn.
    + split; [intros [= ->]; now left|]. intros [[= ->]|H]; [reflexivity|].
      elim Hni. apply (in_map fst) in H. exact H.
    + rewrite IH by assumption. split; [tauto|]. intros [[= -> ->]|H]; [congruence|exact H].
Qed.
Lemma lookup_none (l : list (K * V)) k : lookup K_eq l k = None <-> has K_eq l k = false.
Proof.
  unfold lookup, has. induction l as [|[k0 v0] l IH]; cbn; [tauto|].
  destruct (K_eq k0 k); cbn; [split; discriminate|exact IH].
Qed.

Lemma repr_data_eq s t k : repr s t -> dget K_eq (data s) k = lookup K_eq (map snd t) k.
Proof.
  intros (_ & _ & _ & _ & Hnd & _ & _ & _ & Hd).
  destruct (lookup K_eq (map snd t) k) as [v|] eqn:E.
  - apply lookup_iff in E; [|exact Hnd]. apply in_map_iff in E. destruct E as ([a e] & He & Hi). cbn in He. subst.
    apply Hd. eauto.
  - destruct (dget K_eq (data s) k) as [v|] eqn:E2; [|reflexivity]. apply Hd in E2. destruct E2 as [a Ha].
    apply (in_map snd) in Ha. cbn in Ha. apply (lookup_iff _ k v Hnd) in Ha. congruence.
Qed.
Lemma repr_mem s t k : repr s t -> od_mem K_eq s k = has K_eq (map snd t) k.
Proof.
  intros H. unfold od_mem, dmem. rewrite (repr_data_eq _ _ _ H).
  destruct (has K_eq (map snd t) k) eqn:E.
  - destruct (lookup K_eq (map snd t) k) eqn:E2; [reflexivity|]. apply lookup_none in E2. congruence.
  - apply lookup_none in E. now rewrite E.
Qed.
Lemma R_get s l k : R s l -> od_get K_eq s k = lookup K_eq l k.
Proof. intros (t & <- & H). now apply repr_data_eq. Qed.
Lemma R_mem s l k : R s l -> od_mem K_eq s k = has K_eq l k.
Proof. intros (t & <- & H). now apply repr_mem. Qed.
Lemma R_nodup s l : R s l -> NoDup (map fst l).
Proof. intros (t & <- & H). apply H. Qed.

Lemma R_perm s l : R s l -> Permutation (data s) l.
Proof.
  intros (t & <- & H). pose proof H as H0. destruct H as (_ & _ & _ & _ & Hnd & _ & Hwf & _ & Hd).
  apply NoDup_Permutation.
  - unfold dwf, dkeys in Hwf. now apply NoDup_map_inv in Hwf.
  - now apply NoDup_map_inv in Hnd.
  - intros [k v]. rewrite <- (lookup_iff _ k v Hnd), <- (repr_data_eq _ _ _ H0). split; intros Hi.
    + now apply dget_wf_In.
    + now apply (dget_In K_eq) in Hi.
Qed.
Lemma R_len s l : R s l -> od_len s = length l.
Proof. intros H. unfold od_len. now apply Permutation_length, R_perm. Qed.

Lemma R_empty : R od_empty [].
Proof.
  exists []. split; [reflexivity|]. unfold repr, od_empty, root; cbn.
  repeat split; try discriminate; try tauto; try (intros [? []]); auto.
  - constructor; [tauto|constructor].
  - intros a [<-|[]]. lia.
  - constructor.
  - constructor.
  - constructor.
Qed.

(** ** setting *)
Lemma assign_keys (l : list (K * V)) k v :
  map fst (assign K_eq l k v) = if has K_eq l k then map fst l else map fst l ++ [k].
Proof.
  unfold assign. destruct (has K_eq l k).
  - rewrite map_map. apply map_ext. intros [k' v']. cbn. now destruct (K_eq k' k) as [->|].
  - now rewrite map_app.
Qed.

Lemma R_set s l k v : R s l -> R (od_set K_eq s k v) (assign K_eq l k v).
Proof.
  intros (t & <- & H). pose proof (repr_mem _ _ k H) as Hmem.
  unfold od_set, assign. rewrite Hmem. destruct (has K_eq (map snd t) k) eqn:Eh.
  - destruct H as (H1 & H2 & H3 & H4 & H5 & H6 & H7 & H8 & H9).
    pose (g := fun e : cell => (fst e, if K_eq (fst (snd e)) k then (k, v) else snd e)).
    assert (Hg : map fst (map g t) = map fst t) by (rewrite map_map; reflexivity).
    assert (Hg2 : map fst (map snd (map g t)) = map fst (map snd t)).
    { rewrite !map_map. apply map_ext. intros [a [k' v']]. cbn. now destruct (K_eq k' k) as [->|]. }
    assert (Hin : forall a k' v', In (a, (k', v')) (map g t) <->
                    exists v0, In (a, (k', v0)) t /\ v' = if K_eq k' k then v else v0).
    { intros a k' v'. rewrite in_map_iff. split.
      - intros ([a0 [k0 v0]] & Eg & Hi). unfold g in Eg. cbn in Eg. destruct (K_eq k0 k) as [->|Hn].
        + injection Eg as -> <- <-. exists v0. destruct (K_eq k k); [auto|congruence].
        + injection Eg as -> -> ->. exists v'. destruct (K_eq k' k); [congruence|auto].
      - intros (v0 & Hi & ->). exists (a, (k', v0)). split; [|exact Hi]. unfold g. cbn.
        destruct (K_eq k' k) as [->|]; reflexivity. }
    exists (map g t). split; [rewrite !map_map; reflexivity|].
    unfold repr; cbn [heap fresh kmap data]. rewrite Hg, Hg2. repeat split; auto.
    + intros a k' v' Hi. apply Hin in Hi. destruct Hi as (v0 & Hi & _). eauto.
    + now apply dset_wf.
    + intros Hk. apply H8 in Hk. destruct Hk as [v0 Hi]. eexists. apply Hin. eauto.
    + intros [v' Hi]. apply Hin in Hi. destruct Hi as (v0 & Hi & _). apply H8. eauto.
    + rewrite dget_dset. intros Hk. destruct (K_eq k0 k) as [->|Hn].
      * injection Hk as <-. apply has_iff in Eh. apply in_map_iff in Eh. destruct Eh as ([k' v'] & Ek & Ei).
        cbn in Ek. subst k'. apply in_map_iff in Ei. destruct Ei as ([a e] & Ee & Ei). cbn in Ee. subst e.
        exists a. apply Hin. exists v'. destruct (K_eq k k); [auto|congruence].
      * apply H9 in Hk. destruct Hk as [a Hi]. exists a. apply Hin. exists v0. destruct (K_eq k0 k); [congruence|auto].
    + intros [a Hi]. apply Hin in Hi. destruct Hi as (v1 & Hi & ->). rewrite dget_dset.
      destruct (K_eq k0 k); [reflexivity|]. apply H9. eauto.
  - assert (Hdn : dget K_eq (data s) k = None) by (rewrite (repr_data_eq _ _ _ H); now apply lookup_none).
    destruct H as (H1 & H2 & H3 & H4 & H5 & H6 & H7 & H8 & H9).
    set (a := fresh s). set (last_ := lprev (heap s root)).
    exists (t ++ [(a, (k, v))]). split; [now rewrite map_app|].
    assert (Hfr : forall x, In x (root :: map fst t) -> Nat.eqb x a = false).
    { intros x Hx. apply Nat.eqb_neq. intros ->. apply H2 in Hx. unfold a in Hx. lia. }
    assert (Hna : ~ In a (root :: map fst t)).
    { intros Hi. apply Hfr in Hi. now rewrite Nat.eqb_refl in Hi. }
    pose proof (seg_last _ _ _ _ H3) as Hl. fold last_ in Hl.
    assert (Hra : Nat.eqb root a = false) by (apply Hfr; now left).
    assert (Har : Nat.eqb a root = false) by (rewrite Nat.eqb_sym; exact Hra).
    assert (Hla : Nat.eqb last_ a = false) by (apply Hfr; rewrite Hl; apply last_in).
    assert (Hal : Nat.eqb a last_ = false) by (rewrite Nat.eqb_sym; exact Hla).
    apply has_false in Eh.
    unfold repr; cbn [heap fresh kmap data]. rewrite !map_app. cbn [map fst snd]. repeat split.
    + change (root :: map fst t ++ [a]) with ((root :: map fst t) ++ [a]).
      apply NoDup_rev in H1. rewrite <- (rev_involutive (_ ++ [a])). apply NoDup_rev.
      rewrite rev_app_distr. cbn [rev app]. constructor; [|exact H1]. intros Hi. apply Hna.
      apply in_rev. exact Hi.
    + intros x Hx. change (root :: map fst t ++ [a]) with ((root :: map fst t) ++ [a]) in Hx.
      apply in_app_iff in Hx. destruct Hx as [Hx|[<-|[]]]; [|unfold a; lia]. apply H2 in Hx. unfold a; lia.
    + apply seg_app. split.
      * apply (seg_retarget (heap s) _ _ _ root a); auto; rewrite <- ?Hl.
        -- intros x Hx Hxl. rewrite next_set_prev, next_set_next. apply Nat.eqb_neq in Hxl. rewrite Hxl.
           unfold put. now rewrite (Hfr x Hx).
        -- intros x Hx. rewrite prev_set_prev, prev_set_next. unfold put. rewrite (Hfr x) by now right.
           destruct (Nat.eqb x root) eqn:E; [|reflexivity]. apply Nat.eqb_eq in E. subst x.
           apply NoDup_cons_iff in H1. tauto.
        -- now rewrite next_set_prev, next_set_next, Nat.eqb_refl.
        -- rewrite prev_set_prev, prev_set_next, Har. unfold put. now rewrite Nat.eqb_refl.
      * cbn [seg]. rewrite next_set_prev, next_set_next, Hal, prev_set_prev, Nat.eqb_refl.
        unfold put. rewrite Nat.eqb_refl. auto.
    + intros x k' v' Hi. rewrite key_set_prev, key_set_next. unfold put. apply in_app_iff in Hi.
      destruct Hi as [Hi|[[= <- <- <-]|[]]]; [|now rewrite Nat.eqb_refl].
      rewrite Hfr; [eauto|]. right. apply (in_map fst) in Hi. exact Hi.
    + apply NoDup_rev in H5. rewrite <- (rev_involutive (_ ++ [k])). apply NoDup_rev.
      rewrite rev_app_distr. cbn [rev app]. constructor; [|exact H5]. intros Hi. apply Eh.
      apply in_rev. exact Hi.
    + now apply dset_wf.
    + now apply dset_wf.
    + rewrite dget_dset. intros Hk. destruct (K_eq k0 k) as [->|Hn].
      * injection Hk as <-. exists v. apply in_app_iff. right. now left.
      * apply H8 in Hk. destruct Hk as [v' Hi]. exists v'. apply in_app_iff. now left.
    + intros [v' Hi]. rewrite dget_dset. apply in_app_iff in Hi. destruct Hi as [Hi|[[= -> -> ->]|[]]].
      * destruct (K_eq k0 k) as [->|Hn]; [|apply H8; eauto].
        elim Eh. apply (in_map snd), (in_map fst) in Hi. exact Hi.
      * destruct (K_eq k0 k0); [reflexivity|congruence].
    + rewrite dget_dset. intros Hk. destruct (K_eq k0 k) as [->|Hn].
      * injection Hk as <-. exists a. apply in_app_iff. right. now left.
      * apply H9 in Hk. destruct Hk as [a' Hi]. exists a'. apply in_app_iff. now left.
    + intros [a' Hi]. rewrite dget_dset. apply in_app_iff in Hi. destruct Hi as [Hi|[[= -> -> ->]|[]]].
      * destruct (K_eq k0 k) as [->|Hn]; [|apply H9; eauto].
        elim Eh. apply (in_map snd), (in_map fst) in Hi. exact Hi.
      * destruct (K_eq k0 k0); [reflexivity|congruence].
Qed.

(** ** deleting *)
Lemma drop_mid (l1 l2 : list (K * V)) k v :
  NoDup (map fst (l1 ++ (k, v) :: l2)) -> drop K_eq (l1 ++ (k, v) :: l2) k = l1 ++ l2.
Proof.
  rewrite map_app. cbn [map fst]. intros H. apply NoDup_remove_2 in H. rewrite in_app_iff in H.
  assert (Hk : forall l : list (K * V), ~ In k (map fst l) -> drop K_eq l k = l).
  { intros l. induction l as [|[k' v'] l IH]; cbn; [reflexivity|]. intros Hn.
    destruct (K_eq k' k) as [->|]; [tauto|]. f_equal. apply IH. tauto. }
  unfold drop. rewrite filter_app. cbn [filter fst]. destruct (K_eq k k); [|congruence].
  rewrite <- (Hk l1), <- (Hk l2) at 2 by tauto. reflexivity.
Qed.

Lemma repr_unlink s t1 a k v t2 :
  repr s (t1 ++ (a, (k, v)) :: t2) ->
  repr (Od (unlink (heap s) a) (fresh s) (ddel K_eq (kmap s) k) (ddel K_eq (data s) k)) (t1 ++ t2).
Proof.
  intros (H1 & H2 & H3 & H4 & H5 & H6 & H7 & H8 & H9). unfold repr; cbn [heap fresh kmap data].
  assert (Hin : forall a' k' v', In (a', (k', v')) (t1 ++ t2) <-> In (a', (k', v')) (t1 ++ (a, (k, v)) :: t2) /\ k' <> k).
  { intros a' k' v'. rewrite !in_app_iff. cbn [In].
    assert (Hk : forall e, In e (t1 ++ t2) -> fst (snd e) <> k).
    { rewrite map_app, map_app in H5. cbn in H5. apply NoDup_remove_2 in H5. rewrite <- !map_app in H5.
      intros e He Ek. apply H5. rewrite <- Ek. now apply in_map, in_map. }
    split.
    - intros Hi. split; [tauto|]. apply (Hk (a', (k', v'))). apply in_app_iff. tauto.
    - intros [[Hi|[[= -> -> ->]|Hi]] Hn]; tauto. }
  rewrite map_app in H1, H2, H3. cbn [map fst] in H1, H2, H3. repeat split.
  - rewrite map_app. apply NoDup_cons_iff in H1. destruct H1 as [Hr Hn]. constructor.
    + intros Hi. apply Hr. apply in_app_iff in Hi. apply in_app_iff. cbn. tauto.
    + now apply NoDup_remove_1 in Hn.
  - intros x Hx. apply H2. rewrite map_app in Hx. cbn in Hx |- *. rewrite in_app_iff in *. cbn. tauto.
  - rewrite map_app. now apply seg_unlink.
  - intros a' k' v' Hi. unfold unlink. rewrite key_set_prev, key_set_next. apply Hin in Hi. eapply H4. apply Hi.
  - rewrite !map_app in *. cbn in H5. now apply NoDup_remove_1 in H5.
  - now apply ddel_wf.
  - now apply ddel_wf.
  - rewrite dget_ddel by assumption. destruct (K_eq k0 k) as [->|Hn]; [discriminate|].
    intros Hk. apply H8 in Hk. destruct Hk as [v' Hi]. exists v'. apply Hin. auto.
  - intros [v' Hi]. apply Hin in Hi. destruct Hi as [Hi Hn]. rewrite dget_ddel by assumption.
    destruct (K_eq k0 k); [congruence|]. apply H8. eauto.
  - rewrite dget_ddel by assumption. destruct (K_eq k0 k) as [->|Hn]; [discriminate|].
    intros Hk. apply H9 in Hk. destruct Hk as [a' Hi]. exists a'. apply Hin. auto.
  - intros [a' Hi]. apply Hin in Hi. destruct Hi as [Hi Hn]. rewrite dget_ddel by assumption.
    destruct (K_eq k0 k); [congruence|]. apply H9. eauto.
Qed.

Lemma R_del s l k :
  R s l -> has K_eq l k = true ->
  exists s', od_del K_eq s k = (s', RNone) /\ R s' (drop K_eq l k).
Proof.
  intros (t & <- & H) Hh. apply has_iff in Hh. apply in_map_iff in Hh. destruct Hh as ([k' v] & Ek & Hi).
  cbn in Ek. subst k'. apply in_map_iff in Hi. destruct Hi as ([a e] & Ee & Hi). cbn in Ee. subst e.
  pose proof H as (H1 & H2 & H3 & H4 & H5 & H6 & H7 & H8 & H9).
  assert (Hd : dget K_eq (data s) k = Some v) by (apply H9; eauto).
  assert (Hm : dget K_eq (kmap s) k = Some a) by (apply H8; eauto).
  unfold od_del. rewrite Hd, Hm. eexists. split; [reflexivity|].
  apply in_split in Hi. destruct Hi as (t1 & t2 & ->).
  exists (t1 ++ t2). split.
  - rewrite !map_app. cbn [map snd]. rewrite drop_mid; [reflexivity|].
    rewrite map_app in H5. exact H5.
  - apply repr_unlink in H. exact H.
Qed.
Lemma R_del_missing s l k : R s l -> has K_eq l k = false -> od_del K_eq s k = (s, RKeyError).
Proof.
  intros H Hh. unfold od_del. pose proof (R_get _ _ k H) as E. unfold od_get in E. rewrite E.
  apply lookup_none in Hh. now rewrite Hh.
Qed.

Lemma link_ext (x y : link K) : lprev x = lprev y -> lnext x = lnext y -> lkey x = lkey y -> x = y.
Proof. destruct x, y; cbn; congruence. Qed.

Lemma R_popitem s l b :
  R s l -> exists s', od_popitem K_eq s b = (s', snd (spec_step K_eq l (PopItem b))) /\
                      R s' (fst (spec_step K_eq l (PopItem b))).
Proof.
  intros HR. pose proof (R_perm _ _ HR) as Hp.
  destruct l as [|e0 l0] eqn:El.
  { apply Permutation_sym, Permutation_nil in Hp. exists s. unfold od_popitem. rewrite Hp.
    destruct b; cbn; auto. }
  rewrite <- El in *. assert (Hne : l <> []) by congruence. clear El.
  destruct HR as (t & Et & H).
  assert (Hsplit : exists t1 a k v t2, t = t1 ++ (a, (k, v)) :: t2 /\
            a = (if b then lprev (heap s root) else lnext (heap s root)) /\
            (if b then t2 = [] else t1 = []) /\
            spec_step K_eq l (PopItem b) = (map snd (t1 ++ t2), RItem k v)).
  { destruct b.
    - destruct (rev t) as [|[a [k v]] r] eqn:E.
      { apply (f_equal (@rev _)) in E. rewrite rev_involutive in E. subst. now elim Hne. }
      apply (f_equal (@rev _)) in E. rewrite rev_involutive in E. cbn [rev] in E.
      exists (rev r), a, k, v, []. repeat split; [exact E| |].
      + destruct H as (_ & _ & H3 & _). rewrite E, map_app in H3. apply seg_last in H3. rewrite H3.
        cbn. now rewrite last_last.
      + rewrite <- Et, E, map_app. cbn [map snd spec_step]. rewrite rev_app_distr, app_nil_r. cbn [rev app].
        now rewrite rev_involutive.
    - destruct t as [|[a [k v]] r]. { subst. now elim Hne. }
      exists [], a, k, v, r. repeat split.
      + destruct H as (_ & _ & H3 & _). apply seg_first in H3. rewrite H3. reflexivity.
      + rewrite <- Et. reflexivity. }
  destruct Hsplit as (t1 & a & k & v & t2 & -> & Ha & Hb & ->). cbn [fst snd].
  pose proof H as (H1 & H2 & H3 & H4 & H5 & H6 & H7 & H8 & H9).
  assert (Hi : In (a, (k, v)) (t1 ++ (a, (k, v)) :: t2)) by (apply in_app_iff; right; now left).
  assert (Hd : dget K_eq (data s) k = Some v) by (apply H9; eauto).
  assert (Hm : dget K_eq (kmap s) k = Some a) by (apply H8; eauto).
  unfold od_popitem. destruct (data s) as [|e1 d] eqn:Ed; [discriminate|]. rewrite <- Ed in *. clear Ed.
  cbv zeta. rewrite <- Ha. rewrite (H4 a k v Hi), Hm, Hd. eexists. split; [reflexivity|].
  exists (t1 ++ t2). split; [reflexivity|].
  apply repr_unlink in H.
  match goal with |- repr (Od ?hh _ _ _) _ => assert (Eh : hh = unlink (heap s) a) end; [|now rewrite Eh].
  assert (Hseg := H3). rewrite map_app in Hseg. cbn [map fst] in Hseg. apply seg_app in Hseg. destruct Hseg as [Hs1 Hs2].
  unfold unlink. destruct b; subst.
  - apply seg_first in Hs2. cbn in Hs2. rewrite Hs2. reflexivity.
  - apply seg_last in Hs1. cbn in Hs1. rewrite Hs1. reflexivity.
Qed.

Lemma R_update u : forall s l, R s l ->
  R (od_update K_eq s u) (fold_left (fun l e => assign K_eq l (fst e) (snd e)) u l).
Proof. induction u as [|e u IH]; intros s l H; [exact H|]. apply IH. now apply R_set. Qed.

Lemma R_clear s l : R s l -> R (od_clear true s) [].
Proof.
  intros (t & _ & H1 & H2 & _). exists []. split; [reflexivity|]. unfold repr, od_clear; cbn.
  repeat split; try discriminate; try tauto; try (intros [? []]); auto.
  - constructor; [tauto|constructor].
  - intros a [<-|[]]. apply H2. now left.
  - constructor.
  - constructor.
  - constructor.
Qed.

(** ** one step, and every history *)
Lemma R_step s l o :
  R s l -> exists s', od_step K_eq true s o = (s', snd (spec_step K_eq l o)) /\ R s' (fst (spec_step K_eq l o)).
Proof.
  intros H. destruct o as [k v|k|k d|b|k v|u|]; cbn [od_step].
  - eexists. split; [reflexivity|]. now apply R_set.
  - cbn [spec_step]. destruct (has K_eq l k) eqn:E.
    + destruct (R_del _ _ _ H E) as (s' & E1 & E2). eauto.
    + exists s. rewrite (R_del_missing _ _ _ H E). auto.
  - unfold od_pop. rewrite (R_mem _ _ k H), (R_get _ _ k H). cbn [spec_step].
    destruct (lookup K_eq l k) as [v|] eqn:E.
    + destruct (has K_eq l k) eqn:Eh.
      * destruct (R_del _ _ _ H Eh) as (s' & E1 & E2). rewrite E1. eauto.
      * apply lookup_none in Eh. congruence.
    + apply lookup_none in E. rewrite E. destruct d; eauto.
  - now apply R_popitem.
  - unfold od_setdefault. rewrite (R_mem _ _ k H), (R_get _ _ k H). cbn [spec_step].
    destruct (lookup K_eq l k) as [x|] eqn:E.
    + destruct (has K_eq l k) eqn:Eh; [eauto|]. apply lookup_none in Eh. congruence.
    + apply lookup_none in E. rewrite E. eexists. split; [reflexivity|]. cbn.
      pose proof (R_set s l k v H) as HS. unfold assign in HS. now rewrite E in HS.
  - eexists. split; [reflexivity|]. now apply R_update.
  - eexists. split; [reflexivity|]. eapply R_clear; eauto.
Qed.

Lemma R_run hist : forall s l, R s l ->
  snd (od_run K_eq true s hist) = snd (spec_run K_eq l hist) /\
  R (fst (od_run K_eq true s hist)) (fst (spec_run K_eq l hist)).
Proof.
  induction hist as [|o hist IH]; intros s l H; cbn [od_run spec_run].
  - auto.
  - destruct (R_step s l o H) as (s1 & E1 & H1). rewrite E1.
    destruct (spec_step K_eq l o) as [l1 r]. cbn [fst snd] in *.
    specialize (IH s1 l1 H1). destruct (od_run K_eq true s1 hist). destruct (spec_run K_eq l1 hist). cbn [fst snd] in *.
    destruct IH as [-> IH]. auto.
Qed.

(** ** observations *)
Lemma walk_next_seg h t fuel p : (forall a k v, In (a, (k, v)) t -> lkey (h a) = Some k) ->
  NoDup (root :: map fst t) -> length t <= fuel -> seg h p (map fst t) root ->
  walk lnext h fuel (lnext (h p)) = Some (map Some (map fst (map (@snd nat (K * V)) t))).
Proof.
  revert fuel p. induction t as [|[a [k v]] t IH]; intros fuel p Hk Hnd Hf Hs.
  - cbn in Hs. destruct Hs as [-> _]. destruct fuel; reflexivity.
  - cbn in Hs. destruct Hs as (-> & _ & Hs). destruct fuel as [|fuel]; [cbn in Hf; lia|].
    cbn [walk]. cbn [map fst] in Hnd. destruct (Nat.eqb a root) eqn:E.
    { apply Nat.eqb_eq in E. subst. apply NoDup_cons_iff in Hnd. cbn in Hnd. tauto. }
    rewrite (IH fuel a); auto.
    + rewrite (Hk a k v) by now left. reflexivity.
    + intros. eapply Hk. right. eauto.
    + apply NoDup_cons_iff in Hnd. destruct Hnd as [Hn1 Hn2]. apply NoDup_cons_iff in Hn2.
      constructor; [cbn in Hn1; tauto|tauto].
    + cbn in Hf. lia.
Qed.

Lemma seg_snoc h p l a q : seg h p (l ++ [a]) q -> lprev (h q) = a /\ seg h p l a.
Proof. intros H. apply seg_app in H. destruct H as [H1 [H2 H3]]. auto. Qed.

Lemma walk_prev_seg h t : forall fuel q, (forall a k v, In (a, (k, v)) t -> lkey (h a) = Some k) ->
  NoDup (root :: map fst t) -> length t <= fuel -> seg h root (map fst t) q ->
  walk lprev h fuel (lprev (h q)) = Some (rev (map Some (map fst (map (@snd nat (K * V)) t)))).
Proof.
  induction t as [|[a [k v]] t IH] using rev_ind; intros fuel q Hk Hnd Hf Hs.
  - cbn in Hs. destruct Hs as [_ ->]. destruct fuel; reflexivity.
  - rewrite map_app in Hs. cbn [map fst] in Hs. apply seg_snoc in Hs. destruct Hs as [-> Hs].
    rewrite app_length in Hf. cbn in Hf. destruct fuel as [|fuel]; [lia|].
    rewrite map_app in Hnd. cbn [map fst] in Hnd.
    cbn [walk]. destruct (Nat.eqb a root) eqn:E.
    { apply Nat.eqb_eq in E. subst. apply NoDup_cons_iff in Hnd. rewrite in_app_iff in Hnd. cbn in Hnd. tauto. }
    rewrite (IH fuel a); auto.
    + rewrite (Hk a k v) by (apply in_app_iff; right; now left). rewrite !map_app, rev_app_distr. reflexivity.
    + intros. eapply Hk. apply in_app_iff. left. eauto.
    + change (root :: map fst t ++ [a]) with ((root :: map fst t) ++ [a]) in Hnd.
      apply NoDup_remove_1 in Hnd. now rewrite app_nil_r in Hnd.
    + lia.
Qed.

Lemma repr_len s t : repr s t -> length t <= fresh s.
Proof.
  intros (H1 & H2 & _). rewrite <- (map_length fst t).
  assert (Hi : incl (root :: map fst t) (seq 0 (fresh s))).
  { intros x Hx. apply in_seq. apply H2 in Hx. lia. }
  pose proof (NoDup_incl_length H1 Hi) as HL. rewrite seq_length in HL. cbn in HL. lia.
Qed.

Lemma R_iter s l : R s l -> od_iter s = Some (map Some (map fst l)).
Proof.
  intros (t & <- & H). pose proof (repr_len _ _ H) as HL. destruct H as (H1 & H2 & H3 & H4 & _).
  unfold od_iter. now apply walk_next_seg.
Qed.
Lemma R_reversed s l : R s l -> od_reversed s = Some (map Some (rev (map fst l))).
Proof.
  intros (t & <- & H). pose proof (repr_len _ _ H) as HL. destruct H as (H1 & H2 & H3 & H4 & _).
  unfold od_reversed. rewrite map_rev. now apply walk_prev_seg.
Qed.

Lemma R_items s l : R s l -> od_items K_eq s = Some l.
Proof.
  intros H. unfold od_items. rewrite (R_iter _ _ H).
  assert (G : forall l', incl l' l -> lookups K_eq s (map Some (map fst l')) = Some l').
  { intros l'. induction l' as [|[k v] l' IH]; intros Hi; [reflexivity|]. cbn [map fst lookups].
    rewrite (R_get _ _ _ H). assert (E : lookup K_eq l k = Some v).
    { apply lookup_iff; [now apply (R_nodup _ _ H)|]. apply Hi. now left. }
    rewrite E, IH; [reflexivity|]. intros x Hx. apply Hi. now right. }
  apply G, incl_refl.
Qed.
End P.
