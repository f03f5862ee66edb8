From Verif Require Export BucketModel.
Open Scope Z_scope.

Notation iget b h := (dget handle_eq (b_items b) h).
Notation hget b k := (dget k_eq (b_handles b) k).
Notation lget b k := (dget k_eq (b_lookup b) k).
Notation rget b k := (dget k_eq (b_refs b) k).

Record LInv (b : bucket) (it : item) (added : list handle) : Prop := {
  wf_r : dwf (b_refs b); wf_l : dwf (b_lookup b); wf_h : dwf (b_handles b); wf_i : dwf (b_items b);
  dom_l : forall k, lget b k = None <-> hget b k = None;
  dom_r : forall k, rget b k = None <-> hget b k = None;
  l_key : forall k i, lget b k = Some i -> ikey i = k;
  hs_ok : forall k hs, hget b k = Some hs -> hs <> [] /\ NoDup hs /\
            forall h, In h hs -> ~ In h added /\ exists i, iget b h = Some i /\ ikey i = k;
  it_ok : forall h i, iget b h = Some i ->
            (In h added /\ i = it) \/ (~ In h added /\ exists hs, hget b (ikey i) = Some hs /\ In h hs);
  added_ok : NoDup added /\ forall h, In h added -> iget b h = Some it;
  hashed : forall h i, iget b h = Some i -> hashable h = true
}.

Definition Inv (b : bucket) : Prop := forall it, LInv b it [].

Lemma same_obj_eq a b : same_obj a b = true <-> a = b.
Proof.
  destruct a as [k1 i1], b as [k2 i2]. unfold same_obj. cbn. rewrite andb_true_iff, !Nat.eqb_eq.
  split; [intros [-> ->]; reflexivity|intros [= -> ->]; auto].
Qed.

Lemma list_remove_spec l h : NoDup l -> In h l ->
  exists r, list_remove l h = Some r /\ NoDup r /\ forall x, In x r <-> In x l /\ x <> h.
Proof.
  induction l as [|y l IH]; intros Hnd Hin; [destruct Hin|].
  apply NoDup_cons_iff in Hnd. destruct Hnd as [Hy Hnd]. cbn [list_remove].
  destruct (handle_eq y h) as [->|Hne].
  - exists l. split; [reflexivity|]. split; [exact Hnd|]. intros x. cbn. split.
    + intros H. split; [now right|]. intros ->. contradiction.
    + intros [[->|H] Hx]; [congruence|exact H].
  - destruct Hin as [->|Hin]; [congruence|]. destruct (IH Hnd Hin) as (r & E & Hr & Hx). rewrite E.
    exists (y :: r). split; [reflexivity|]. split.
    + constructor; [|exact Hr]. intros H. apply Hx in H. tauto.
    + intros x. cbn. rewrite Hx. split.
      * intros [->|[H1 H2]]; [split; [now left|exact Hne]|split; [now right|exact H2]].
      * intros [[->|H1] H2]; [now left|right; now split].
Qed.

(** removing an item whose handle list is empty only drops its records *)
Lemma remove_item_nil b k : hget b k = Some [] -> lget b k <> None -> rget b k <> None ->
  remove_item b k = (Bucket (ddel k_eq (b_refs b) k) (ddel k_eq (b_lookup b) k)
                            (ddel k_eq (b_handles b) k) (b_items b) (b_counter b), OOk).
Proof.
  intros H1 H2 H3. unfold remove_item. rewrite H1. cbn [del_items].
  destruct (lget b k); [|congruence]. destruct (rget b k); [|congruence]. reflexivity.
Qed.

(** storing one handle, after any old owner was dealt with *)
Lemma put_LInv b it added h :
  LInv b it added -> hashable h = true -> ~ In h added ->
  (forall k hs, hget b k = Some hs -> ~ In h hs) ->
  LInv (Bucket (b_refs b) (b_lookup b) (b_handles b) (dset handle_eq (b_items b) h it) (b_counter b))
       it (added ++ [h]).
Proof.
  intros L Hh Hna Hno. destruct L. constructor; cbn [b_refs b_lookup b_handles b_items b_counter]; auto.
  - now apply dset_wf.
  - intros k hs E. destruct (hs_ok0 k hs E) as (N1 & N2 & N3). split; [exact N1|]. split; [exact N2|].
    intros x Hx. destruct (N3 x Hx) as (A1 & i & A2 & A3).
    assert (x <> h) by (intros ->; exact (Hno k hs E Hx)). split.
    + rewrite in_app_iff. cbn. intros [H'|[H'|[]]]; [contradiction|congruence].
    + exists i. rewrite dget_dset. destruct (handle_eq x h); [congruence|]. auto.
  - intros x i E. rewrite dget_dset in E. destruct (handle_eq x h) as [->|Hne].
    + injection E as <-. left. split; [|reflexivity]. apply in_app_iff. right. now left.
    + destruct (it_ok0 x i E) as [[A1 A2]|[A1 A2]].
      * left. split; [|exact A2]. apply in_app_iff. now left.
      * right. split; [|exact A2]. rewrite in_app_iff. cbn. intros [H'|[H'|[]]]; [contradiction|congruence].
  - destruct added_ok0 as [A1 A2]. split.
    + apply NoDup_rev in A1. rewrite <- (rev_involutive (added ++ [h])). apply NoDup_rev.
      rewrite rev_app_distr. cbn. constructor; [|exact A1]. rewrite <- in_rev. exact Hna.
    + intros x Hx. rewrite dget_dset. destruct (handle_eq x h) as [->|Hne]; [reflexivity|].
      apply A2. apply in_app_iff in Hx. destruct Hx as [Hx|[Hx|[]]]; [exact Hx|congruence].
  - intros x i E. rewrite dget_dset in E. destruct (handle_eq x h) as [->|Hne]; [exact Hh|]. eauto.
Qed.

Lemma set_loop_spec hs : forall b it added, LInv b it added ->
  exists b' added', set_loop b hs it added = (b', added', OOk) /\ LInv b' it added' /\
    b_counter b' = b_counter b /\
    (forall h, iget b' h = if in_dec handle_eq h (filter hashable hs) then Some it else iget b h) /\
    (forall h, In h added' -> In h added \/ In h (filter hashable hs)) /\
    (forall h, In h added -> In h added') /\
    (* refs and lookup only lose records whose handles are all gone *)
    (forall k, hget b' k <> None -> hget b k <> None /\ rget b' k = rget b k /\ lget b' k = lget b k) /\
    (forall k, hget b k <> None -> hget b' k = None ->
       forall h i, iget b h = Some i -> ikey i = k -> ~ In h added -> In h (filter hashable hs) /\ i <> it) /\
    (forall h, In h (filter hashable hs) -> iget b h = Some it \/ In h added').
Proof.
  induction hs as [|h hs IH]; intros b it added L.
  - exists b, added. cbn. split; [reflexivity|]. split; [exact L|]. repeat split; auto; try contradiction; congruence.
  - cbn [set_loop filter]. destruct (hashable h) eqn:Hh; cbn [negb].
    2:{ apply IH. exact L. }
    destruct (iget b h) as [old|] eqn:Ei.
    + destruct (same_obj it old) eqn:Es.
      * apply same_obj_eq in Es. subst old.
        destruct (IH b it added L) as (b' & added' & E & L' & C & V & A1 & A2 & K1 & K2 & K5).
        exists b', added'. split; [exact E|]. split; [exact L'|]. split; [exact C|]. split; [|split; [|split; [|split; [|split]]]].
        -- intros x. rewrite V. destruct (in_dec handle_eq x (filter hashable hs)) as [H1|H1];
             destruct (in_dec handle_eq x (h :: filter hashable hs)) as [H2|H2]; auto.
           ++ elim H2. now right.
           ++ destruct H2 as [<-|H2]; [exact Ei|contradiction].
        -- intros x Hx. destruct (A1 x Hx); [now left|right; now right].
        -- exact A2.
        -- exact K1.
        -- intros k H1 H2 x i Hx Hk Hna. destruct (K2 k H1 H2 x i Hx Hk Hna) as [Q1 Q2]. split; [now right|exact Q2].
        -- intros x [<-|Hx]; [now left|]. exact (K5 x Hx).
      * assert (Hne : it <> old) by (intros ->; rewrite (proj2 (same_obj_eq old old) eq_refl) in Es; discriminate).
        destruct (it_ok _ _ _ L h old Ei) as [[_ Ho]|[Hna (ohs & Eo & Hin)]]; [congruence|].
        rewrite Eo. destruct (hs_ok _ _ _ L _ _ Eo) as (_ & Hnd & Hohs).
        destruct (list_remove_spec ohs h Hnd Hin) as (r & Er & Hrnd & Hr). rewrite Er.
        (* the state after the old owner was dealt with *)
        assert (HB : exists b2,
           match r with [] => remove_item (Bucket (b_refs b) (b_lookup b) (dset k_eq (b_handles b) (ikey old) r) (b_items b) (b_counter b)) (ikey old)
                      | _ => (Bucket (b_refs b) (b_lookup b) (dset k_eq (b_handles b) (ikey old) r) (b_items b) (b_counter b), OOk) end = (b2, OOk) /\
           b_counter b2 = b_counter b /\ b_items b2 = b_items b /\
           (forall k, hget b2 k = if k_eq k (ikey old) then match r with [] => None | _ => Some r end else hget b k) /\
           (forall k, hget b2 k <> None -> rget b2 k = rget b k /\ lget b2 k = lget b k) /\
           (forall k, rget b2 k = None <-> hget b2 k = None) /\ (forall k, lget b2 k = None <-> hget b2 k = None) /\
           dwf (b_refs b2) /\ dwf (b_lookup b2) /\ dwf (b_handles b2)).
        { destruct L. destruct r as [|x r].
          - rewrite remove_item_nil; cbn [b_refs b_lookup b_handles b_items b_counter].
            + eexists. split; [reflexivity|]. cbn [b_refs b_lookup b_handles b_items b_counter].
              assert (W : dwf (dset k_eq (b_handles b) (ikey old) [])) by now apply dset_wf.
              split; [reflexivity|]. split; [reflexivity|].
              assert (HH : forall k, dget k_eq (ddel k_eq (dset k_eq (b_handles b) (ikey old) []) (ikey old)) k
                           = if k_eq k (ikey old) then None else hget b k).
              { intros k. rewrite dget_ddel by exact W. rewrite dget_dset. destruct (k_eq k (ikey old)); reflexivity. }
              split; [exact HH|]. split; [|split; [|split]].
              * intros k. rewrite HH, !dget_ddel by assumption. destruct (k_eq k (ikey old)); [congruence|auto].
              * intros k. rewrite HH, dget_ddel by assumption. destruct (k_eq k (ikey old)); [tauto|apply dom_r0].
              * intros k. rewrite HH, dget_ddel by assumption. destruct (k_eq k (ikey old)); [tauto|apply dom_l0].
              * repeat split; now apply ddel_wf.
            + rewrite dget_dset. destruct (k_eq (ikey old) (ikey old)); [reflexivity|congruence].
            + rewrite dom_l0, Eo. discriminate.
            + rewrite dom_r0, Eo. discriminate.
          - eexists. split; [reflexivity|]. cbn [b_refs b_lookup b_handles b_items b_counter].
            split; [reflexivity|]. split; [reflexivity|].
            split; [intros k; apply dget_dset|]. split; [auto|].
            assert (HH : forall k, dget k_eq (dset k_eq (b_handles b) (ikey old) (x :: r)) k = None <-> hget b k = None).
            { intros k. rewrite dget_dset. destruct (k_eq k (ikey old)) as [->|]; [|tauto]. rewrite Eo. split; discriminate. }
            split; [intros k; rewrite HH; apply dom_r0|]. split; [intros k; rewrite HH; apply dom_l0|].
            repeat split; try assumption. now apply dset_wf. }
        destruct HB as (b2 & E2 & C2 & I2 & H2 & K2 & R2 & L2 & W2 & W3 & W4).
        assert (Lb2 : LInv (Bucket (b_refs b2) (b_lookup b2) (b_handles b2) (dset handle_eq (b_items b2) h it) (b_counter b2))
                           it (added ++ [h])).
        { (* the old entry for h is overwritten, so work with b2 directly *)
          destruct L. constructor; cbn [b_refs b_lookup b_handles b_items b_counter]; auto.
          - rewrite I2. now apply dset_wf.
          - intros k i E. destruct (hget b2 k) eqn:Ek.
            + destruct (K2 k) as [_ K2l]; [congruence|]. rewrite K2l in E. now apply l_key0.
            + apply L2 in Ek. congruence.
          - intros k hs0 E. rewrite H2 in E.
            assert (Hcase : exists hs1, hget b k = Some hs1 /\ hs0 <> [] /\ NoDup hs0 /\ ~ In h hs0 /\ forall x, In x hs0 -> In x hs1).
            { destruct (k_eq k (ikey old)) as [->|Hk].
              - exists ohs. split; [exact Eo|]. destruct r as [|y r]; [discriminate|]. injection E as <-.
                split; [discriminate|]. split; [exact Hrnd|]. split.
                + intros H'. apply Hr in H'. tauto.
                + intros x Hx. apply Hr in Hx. tauto.
              - exists hs0. destruct (hs_ok0 k hs0 E) as (N1 & N2 & N3). repeat split; auto.
                intros Hx. destruct (N3 h Hx) as (_ & i & A2 & A3). rewrite Ei in A2. injection A2 as <-. congruence. }
            destruct Hcase as (hs1 & E1 & N1 & N2 & N4 & Hsub). split; [exact N1|]. split; [exact N2|].
            intros x Hx. destruct (hs_ok0 k hs1 E1) as (_ & _ & N3). destruct (N3 x (Hsub x Hx)) as (A1 & i & A2 & A3).
            assert (x <> h) by (intros ->; contradiction). split.
            + rewrite in_app_iff. cbn. intros [H'|[H'|[]]]; [contradiction|congruence].
            + exists i. rewrite dget_dset, I2. destruct (handle_eq x h); [congruence|]. auto.
          - intros x i E. rewrite dget_dset, I2 in E. destruct (handle_eq x h) as [->|Hxh].
            + injection E as <-. left. split; [|reflexivity]. apply in_app_iff. right. now left.
            + destruct (it_ok0 x i E) as [[A1 A2]|[A1 (hs1 & A2 & A3)]].
              * left. split; [|exact A2]. apply in_app_iff. now left.
              * right. split.
                { rewrite in_app_iff. cbn. intros [H'|[H'|[]]]; [contradiction|congruence]. }
                rewrite H2. destruct (k_eq (ikey i) (ikey old)) as [Hk|Hk].
                -- rewrite Hk, Eo in A2. injection A2 as <-. assert (Hx' : In x r) by (apply Hr; split; assumption).
                   destruct r as [|y r]; [destruct Hx'|]. exists (y :: r). now split.
                -- exists hs1. now split.
          - destruct added_ok0 as [A1 A2]. split.
            + apply NoDup_rev in A1. rewrite <- (rev_involutive (added ++ [h])). apply NoDup_rev.
              rewrite rev_app_distr. cbn. constructor; [|exact A1]. rewrite <- in_rev. exact Hna.
            + intros x Hx. rewrite dget_dset. destruct (handle_eq x h) as [->|Hxh]; [reflexivity|].
              rewrite I2. apply A2. apply in_app_iff in Hx. destruct Hx as [Hx|[Hx|[]]]; [exact Hx|congruence].
          - intros x i E. rewrite dget_dset, I2 in E. destruct (handle_eq x h) as [->|Hxh]; [exact Hh|]. eauto. }
        destruct (IH _ it _ Lb2) as (b' & added' & E & L' & C & V & A1 & A2 & K3 & K4 & K5).
        exists b', added'.
        assert (Eloop : match r with
          | [] => match remove_item (Bucket (b_refs b) (b_lookup b) (dset k_eq (b_handles b) (ikey old) r) (b_items b) (b_counter b)) (ikey old) with
                  | (b3, OOk) => set_loop (Bucket (b_refs b3) (b_lookup b3) (b_handles b3) (dset handle_eq (b_items b3) h it) (b_counter b3)) hs it (added ++ [h])
                  | (b3, e) => (b3, added, e)
                  end
          | _ :: _ => set_loop (Bucket (b_refs b) (b_lookup b) (dset k_eq (b_handles b) (ikey old) r) (dset handle_eq (b_items b) h it) (b_counter b)) hs it (added ++ [h])
          end = (b', added', OOk)).
        { destruct r as [|y r].
          - rewrite E2. exact E.
          - injection E2 as <-. cbn [b_refs b_lookup b_handles b_items b_counter] in E. exact E. }
        split.
        { destruct r as [|y r]; cbn [b_refs b_lookup b_handles b_items b_counter]; [|exact Eloop].
          destruct (remove_item _ (ikey old)) as [b3 [| | |]]; exact Eloop. }
        split; [exact L'|]. cbn [b_refs b_lookup b_handles b_items b_counter] in *.
        split; [congruence|]. split; [|split; [|split; [|split; [|split]]]].
        -- intros x. rewrite V, dget_dset, I2.
           destruct (in_dec handle_eq x (filter hashable hs)) as [H3|H3];
             destruct (in_dec handle_eq x (h :: filter hashable hs)) as [H4|H4]; auto.
           ++ elim H4. now right.
           ++ destruct H4 as [<-|H4]; [|contradiction]. destruct (handle_eq h h); [reflexivity|congruence].
           ++ destruct (handle_eq x h) as [->|]; [|reflexivity]. elim H4. now left.
        -- intros x Hx. destruct (A1 x Hx) as [H'|H']; [|right; now right].
           apply in_app_iff in H'. destruct H' as [H'|[<-|[]]]; [now left|right; now left].
        -- intros x Hx. apply A2. apply in_app_iff. now left.
        -- intros k Hk. destruct (K3 k Hk) as (B1 & B2 & B3).
           destruct (K2 k B1) as [B4 B5]. split; [|split; congruence].
           rewrite H2 in B1. destruct (k_eq k (ikey old)) as [->|]; [congruence|exact B1].
        -- intros k Hk1 Hk2 x i Hx Hi Hxa.
           destruct (handle_eq x h) as [->|Hxh]; [split; [now left|congruence]|].
           destruct (hget b2 k) eqn:Ek.
           ++ enough (Q : In x (filter hashable hs) /\ i <> it) by (split; [right|]; apply Q).
              apply (K4 k) with (i := i); auto; [congruence| |].
              ** rewrite dget_dset, I2. destruct (handle_eq x h); [congruence|exact Hx].
              ** rewrite in_app_iff. cbn. intros [H'|[H'|[]]]; [contradiction|congruence].
           ++ (* k = ikey old and r = []: the only handle was h *)
              exfalso. rewrite H2 in Ek. destruct (k_eq k (ikey old)) as [->|]; [|congruence].
              destruct r as [|y r]; [|discriminate].
              destruct (it_ok _ _ _ L x i Hx) as [[B1 _]|[_ (hs1 & B1 & B2)]]; [contradiction|].
              rewrite Hi, Eo in B1. injection B1 as <-. assert (In x []) by (apply Hr; now split). contradiction.
        -- intros x [<-|Hx]; [right; apply A2; apply in_app_iff; right; now left|].
           destruct (handle_eq x h) as [->|Hxh]; [right; apply A2; apply in_app_iff; right; now left|].
           destruct (K5 x Hx) as [Q|Q]; [left|now right].
           rewrite dget_dset, I2 in Q. destruct (handle_eq x h); [congruence|exact Q].
    + assert (Hna : ~ In h added).
      { intros H. destruct (added_ok _ _ _ L) as [_ A]. rewrite (A h H) in Ei. discriminate. }
      assert (L2 := put_LInv b it added h L Hh Hna).
      destruct (IH _ it _ (L2 ltac:(intros k hs0 E Hx; destruct (hs_ok _ _ _ L k hs0 E) as (_ & _ & N3);
                                    destruct (N3 h Hx) as (_ & i & A2 & _); rewrite Ei in A2; discriminate)))
        as (b' & added' & E & L' & C & V & A1 & A2 & K3 & K4 & K5).
      cbn [b_refs b_lookup b_handles b_items b_counter] in *.
      exists b', added'. split; [exact E|]. split; [exact L'|]. split; [exact C|]. split; [|split; [|split; [|split; [|split]]]].
      * intros x. rewrite V, dget_dset.
        destruct (in_dec handle_eq x (filter hashable hs)) as [H3|H3];
          destruct (in_dec handle_eq x (h :: filter hashable hs)) as [H4|H4]; auto.
        -- elim H4. now right.
        -- destruct H4 as [<-|H4]; [|contradiction]. destruct (handle_eq h h); [reflexivity|congruence].
        -- destruct (handle_eq x h) as [->|]; [|reflexivity]. elim H4. now left.
      * intros x Hx. destruct (A1 x Hx) as [H'|H']; [|right; now right].
        apply in_app_iff in H'. destruct H' as [H'|[<-|[]]]; [now left|right; now left].
      * intros x Hx. apply A2. apply in_app_iff. now left.
      * exact K3.
      * intros k Hk1 Hk2 x i Hx Hi Hxa.
        destruct (handle_eq x h) as [->|Hxh]; [congruence|].
        enough (Q : In x (filter hashable hs) /\ i <> it) by (split; [right|]; apply Q).
        apply (K4 k Hk1 Hk2 x i); auto.
        -- rewrite dget_dset. destruct (handle_eq x h); [congruence|exact Hx].
        -- rewrite in_app_iff. cbn. intros [H'|[H'|[]]]; [contradiction|congruence].
      * intros x [<-|Hx]; [right; apply A2; apply in_app_iff; right; now left|].
        destruct (handle_eq x h) as [->|Hxh]; [right; apply A2; apply in_app_iff; right; now left|].
        destruct (K5 x Hx) as [Q|Q]; [left|now right].
        rewrite dget_dset in Q. destruct (handle_eq x h); [congruence|exact Q].
Qed.

(** * Removal *)
Lemma del_items_spec hs : forall items, dwf items -> NoDup hs ->
  (forall h, In h hs -> dget handle_eq items h <> None) ->
  exists items', del_items items hs = (items', OOk) /\ dwf items' /\
    forall h, dget handle_eq items' h = if in_dec handle_eq h hs then None else dget handle_eq items h.
Proof.
  induction hs as [|h hs IH]; intros items W Hnd Hin; cbn [del_items].
  - exists items. cbn. auto.
  - apply NoDup_cons_iff in Hnd. destruct Hnd as [Hh Hnd].
    destruct (dget handle_eq items h) eqn:E; [|elim (Hin h); [now left|exact E]].
    destruct (IH (ddel handle_eq items h)) as (items' & E' & W' & V); auto.
    + now apply ddel_wf.
    + intros x Hx. rewrite dget_ddel by exact W. destruct (handle_eq x h) as [->|]; [contradiction|].
      apply Hin. now right.
    + exists items'. split; [exact E'|]. split; [exact W'|]. intros x. rewrite V, dget_ddel by exact W.
      destruct (in_dec handle_eq x hs) as [H1|H1]; destruct (in_dec handle_eq x (h :: hs)) as [H2|H2]; auto.
      * elim H2. now right.
      * destruct H2 as [<-|H2]; [|contradiction]. destruct (handle_eq h h); [reflexivity|congruence].
      * destruct (handle_eq x h) as [->|]; [elim H2; now left|reflexivity].
Qed.

Lemma remove_item_spec b k : Inv b ->
  (hget b k = None -> remove_item b k = (b, OKeyError)) /\
  (hget b k <> None -> exists b', remove_item b k = (b', OOk) /\ Inv b' /\ b_counter b' = b_counter b /\
     (forall h, iget b' h = match iget b h with
                            | Some i => if k_eq (ikey i) k then None else Some i
                            | None => None end) /\
     (forall k', hget b' k' = if k_eq k' k then None else hget b k') /\
     (forall k', rget b' k' = if k_eq k' k then None else rget b k') /\
     (forall k' i, lget b' k' = Some i -> lget b k' = Some i)).
Proof.
  intros I. split; [intros E; unfold remove_item; now rewrite E|].
  intros Hne. destruct (hget b k) as [hs|] eqn:Eh; [|congruence]. clear Hne.
  pose proof (I (Item 0 0)) as L. destruct (hs_ok _ _ _ L k hs Eh) as (N1 & N2 & N3).
  unfold remove_item. rewrite Eh.
  destruct (del_items_spec hs (b_items b)) as (items' & E' & W' & V).
  { apply (wf_i _ _ _ L). } { exact N2. }
  { intros h Hh. destruct (N3 h Hh) as (_ & i & A & _). rewrite A. discriminate. }
  rewrite E'.
  destruct (lget b k) as [lk|] eqn:El; [|apply (dom_l _ _ _ L) in El; congruence].
  destruct (rget b k) as [rk|] eqn:Er; [|apply (dom_r _ _ _ L) in Er; congruence].
  eexists. split; [reflexivity|]. cbn [b_refs b_lookup b_handles b_items b_counter].
  assert (V' : forall h, dget handle_eq items' h = match iget b h with
                            | Some i => if k_eq (ikey i) k then None else Some i
                            | None => None end).
  { intros h. rewrite V. destruct (in_dec handle_eq h hs) as [Hin|Hni].
    - destruct (N3 h Hin) as (_ & i & A & Hk). rewrite A. destruct (k_eq (ikey i) k); [reflexivity|contradiction].
    - destruct (iget b h) as [i|] eqn:Ei; [|reflexivity]. destruct (k_eq (ikey i) k) as [Hk|]; [|reflexivity].
      destruct (it_ok _ _ _ L h i Ei) as [[[] _]|[_ (hs1 & B1 & B2)]]. rewrite Hk, Eh in B1. congruence. }
  assert (HH : forall k', dget k_eq (ddel k_eq (b_handles b) k) k' = if k_eq k' k then None else hget b k').
  { intros k'. apply dget_ddel. apply (wf_h _ _ _ L). }
  assert (HR : forall k', dget k_eq (ddel k_eq (b_refs b) k) k' = if k_eq k' k then None else rget b k').
  { intros k'. apply dget_ddel. apply (wf_r _ _ _ L). }
  split; [|split; [reflexivity|split; [exact V'|split; [exact HH|split; [exact HR|]]]]].
  2:{ intros k' i' Hl. rewrite dget_ddel in Hl by apply (wf_l _ _ _ L). destruct (k_eq k' k); [discriminate|exact Hl]. }
  intros it. destruct (I it). constructor; cbn [b_refs b_lookup b_handles b_items b_counter]; auto using ddel_wf.
  - intros k'. rewrite HH, dget_ddel by assumption. destruct (k_eq k' k); [tauto|apply dom_l0].
  - intros k'. rewrite HH, HR. destruct (k_eq k' k); [tauto|apply dom_r0].
  - intros k' i'. rewrite dget_ddel by assumption. destruct (k_eq k' k); [discriminate|apply l_key0].
  - intros k' hs'. rewrite HH. destruct (k_eq k' k) as [|Hk]; [discriminate|]. intros E.
    destruct (hs_ok0 k' hs' E) as (M1 & M2 & M3). split; [exact M1|]. split; [exact M2|].
    intros h Hh. destruct (M3 h Hh) as (Q & i' & B1 & B2). split; [exact Q|]. exists i'. rewrite V', B1.
    destruct (k_eq (ikey i') k); [congruence|]. auto.
  - intros h i' E. rewrite V' in E. destruct (iget b h) as [i2|] eqn:E2; [|discriminate].
    destruct (k_eq (ikey i2) k) as [|Hk]; [discriminate|]. injection E as <-.
    destruct (it_ok0 h i2 E2) as [[[] _]|[Q (hs1 & B1 & B2)]]. right. split; [exact Q|].
    exists hs1. rewrite HH. destruct (k_eq (ikey i2) k); [contradiction|]. auto.
  - split; [constructor|intros h []].
  - intros h i' E. rewrite V' in E. destruct (iget b h) as [i2|] eqn:E2; [|discriminate]. eauto.
Qed.

(** * set_item *)
Lemma Inv_counter b c : Inv b -> Inv (Bucket (b_refs b) (b_lookup b) (b_handles b) (b_items b) c).
Proof. intros I it. destruct (I it). constructor; assumption. Qed.

Lemma Inv_hget b k : Inv b -> (hget b k <> None <-> exists h i, iget b h = Some i /\ ikey i = k).
Proof.
  intros I. pose proof (I (Item 0 0)) as L. split.
  - intros H. destruct (hget b k) as [hs|] eqn:E; [|congruence].
    destruct (hs_ok _ _ _ L k hs E) as (N1 & _ & N3). destruct hs as [|h hs]; [congruence|].
    destruct (N3 h) as (_ & i & A); [now left|]. eauto.
  - intros (h & i & E & Hk). destruct (it_ok _ _ _ L h i E) as [[[] _]|[_ (hs & A & _)]]. congruence.
Qed.

Lemma NoDup_app_disj {A} (l1 l2 : list A) : NoDup l1 -> NoDup l2 -> (forall x, In x l1 -> ~ In x l2) -> NoDup (l1 ++ l2).
Proof.
  induction l1 as [|x l1 IH]; cbn; intros H1 H2 Hd; [exact H2|].
  apply NoDup_cons_iff in H1. destruct H1 as [Hx H1]. constructor.
  - rewrite in_app_iff. intros [H|H]; [contradiction|]. exact (Hd x (or_introl eq_refl) H).
  - apply IH; auto.
Qed.

Lemma set_item_spec b hs it ih ar : Inv b ->
  let known := match hget b (ikey it) with Some _ => true | None => false end in
  let hs' := if negb known && ih then hs ++ [HInt (b_counter b)] else hs in
  exists b', set_item b hs it ih ar = (b', hs', OOk) /\ Inv b' /\
    b_counter b' = (if negb known && ih then b_counter b + 1 else b_counter b) /\
    (forall h, iget b' h = if in_dec handle_eq h (filter hashable hs') then Some it else iget b h) /\
    (forall k, k <> ikey it -> hget b' k <> None -> rget b' k = rget b k) /\
    (* some handle of an equal item is not taken over: one more reference *)
    ((exists h i, iget b h = Some i /\ ikey i = ikey it /\ (~ In h (filter hashable hs') \/ i = it)) ->
       forall r, rget b (ikey it) = Some r -> rget b' (ikey it) = Some (if ar then r + 1 else r)) /\
    ((forall h i, iget b h = Some i -> ikey i = ikey it -> In h (filter hashable hs') /\ i <> it) ->
       hget b' (ikey it) <> None -> rget b' (ikey it) = Some 1) /\
    (forall k i, lget b' k = Some i -> lget b k = Some i \/ i = it).
Proof.
  intros I known hs'. unfold set_item. pose proof (I it) as L.
  assert (Hk : dmem k_eq (b_lookup b) (ikey it) = known).
  { unfold dmem, known. destruct (lget b (ikey it)) eqn:El; destruct (hget b (ikey it)) eqn:Eh; auto.
    - apply (dom_l _ _ _ L) in Eh. congruence.
    - apply (dom_l _ _ _ L) in El. congruence. }
  rewrite Hk.
  set (b0 := if negb known && ih then Bucket (b_refs b) (b_lookup b) (b_handles b) (b_items b) (b_counter b + 1) else b).
  assert (E0 : (if negb known && ih
     then (hs ++ [HInt (b_counter b)], Bucket (b_refs b) (b_lookup b) (b_handles b) (b_items b) (b_counter b + 1))
     else (hs, b)) = (hs', b0)) by (unfold hs', b0; destruct (negb known && ih); reflexivity).
  rewrite E0.
  assert (I0 : Inv b0) by (unfold b0; destruct (negb known && ih); [now apply Inv_counter|exact I]).
  assert (F0 : b_refs b0 = b_refs b /\ b_lookup b0 = b_lookup b /\ b_handles b0 = b_handles b /\ b_items b0 = b_items b)
    by (unfold b0; destruct (negb known && ih); auto).
  assert (C0 : b_counter b0 = (if negb known && ih then b_counter b + 1 else b_counter b))
    by (unfold b0; destruct (negb known && ih); auto).
  destruct F0 as (F1 & F2 & F3 & F4). clearbody b0 hs'. clear E0.
  destruct (set_loop_spec hs' b0 it [] (I0 it)) as (b1 & added & E & L1 & C & V & A1 & A2 & K1 & K2 & K5).
  rewrite E. rewrite F1, F2, F3, F4 in *.
  pose proof L1 as L1'. destruct L1' as [W1 W2 W3 W4 D1 D2 D3 D4 D5 D6 D7].
  assert (FinalInv : forall b', b_items b' = b_items b1 -> dwf (b_refs b') -> dwf (b_lookup b') -> dwf (b_handles b') ->
     (forall k, lget b' k = None <-> hget b' k = None) -> (forall k, rget b' k = None <-> hget b' k = None) ->
     (forall k i, lget b' k = Some i -> ikey i = k) ->
     (forall k, k <> ikey it -> hget b' k = hget b1 k) ->
     (hget b' (ikey it) = match hget b1 (ikey it) with Some o => Some (o ++ added)
                          | None => match added with [] => None | _ => Some added end end) -> Inv b').
  { intros b' Hi Q1 Q2 Q3 Q4 Q5 Q6 Q7 Q8 it'. constructor; auto.
    - now rewrite Hi.
    - intros k hs0 Ek. destruct (k_eq k (ikey it)) as [->|Hne].
      + rewrite Q8 in Ek. destruct D6 as [D6 D6'].
        assert (Hadd : forall h, In h added -> ~ In h [] /\ exists i, iget b' h = Some i /\ ikey i = ikey it).
        { intros h Hh. split; [intros []|]. exists it. rewrite Hi. split; [now apply D6'|reflexivity]. }
        destruct (hget b1 (ikey it)) as [o|] eqn:Eo.
        * injection Ek as <-. destruct (D4 _ _ Eo) as (M1 & M2 & M3). split.
          { destruct o; [congruence|discriminate]. }
          split.
          { apply NoDup_app_disj; auto. intros x Hx. now apply M3. }
          intros h Hh. apply in_app_iff in Hh. destruct Hh as [Hh|Hh]; [|now apply Hadd].
          split; [intros []|]. rewrite Hi. now apply M3.
        * destruct added as [|a added]; [discriminate|]. injection Ek as <-.
          split; [discriminate|]. split; [exact D6|]. exact Hadd.
      + rewrite (Q7 k Hne) in Ek. destruct (D4 k hs0 Ek) as (M1 & M2 & M3). split; [exact M1|]. split; [exact M2|].
        intros h Hh. destruct (M3 h Hh) as (M4 & M5). split; [intros []|]. now rewrite Hi.
    - intros h i Eh. rewrite Hi in Eh. right. split; [intros []|].
      destruct (D5 h i Eh) as [[B1 ->]|[B1 (hs1 & B2 & B3)]].
      + rewrite Q8. destruct (hget b1 (ikey it)) as [o|].
        * exists (o ++ added). split; [reflexivity|]. apply in_app_iff. now right.
        * destruct added as [|a added]; [destruct B1|]. eauto.
      + destruct (k_eq (ikey i) (ikey it)) as [Ek|Hne].
        * rewrite Ek in *. rewrite Q8, B2. exists (hs1 ++ added). split; [reflexivity|]. apply in_app_iff. now left.
        * rewrite (Q7 _ Hne). eauto.
    - split; [constructor|intros h []].
    - intros h i Eh. rewrite Hi in Eh. eauto. }
  assert (Vfin : forall b' h, b_items b' = b_items b1 ->
     iget b' h = if in_dec handle_eq h (filter hashable hs') then Some it else iget b h).
  { intros b' h ->. apply V. }
  (* whether the record of an equal item survived the loop *)
  assert (Surv : (exists h i, iget b h = Some i /\ ikey i = ikey it /\ (~ In h (filter hashable hs') \/ i = it)) ->
                 hget b1 (ikey it) <> None).
  { intros (h & i & B1 & B2 & B3) Hn.
    assert (Hl : hget b (ikey it) <> None).
    { apply Inv_hget; [exact I|]. eauto. }
    destruct (K2 (ikey it) Hl Hn h i B1 B2) as [B4 B5]; [intros []|]. destruct B3; contradiction. }
  assert (Gone : (forall h i, iget b h = Some i -> ikey i = ikey it -> In h (filter hashable hs') /\ i <> it) ->
                 hget b1 (ikey it) = None).
  { intros Hall. destruct (hget b1 (ikey it)) as [o|] eqn:Eo; [|reflexivity]. exfalso.
    destruct (D4 _ _ Eo) as (M1 & _ & M3). destruct o as [|h o]; [congruence|].
    destruct (M3 h) as (M4 & i & M5 & M6); [now left|].
    assert (M5' := M5). rewrite V in M5'. destruct (in_dec handle_eq h (filter hashable hs')) as [Hin|Hni].
    - destruct (K5 h Hin) as [K6|K6]; [|contradiction].
      destruct (Hall h it K6 eq_refl) as [_ Hc]. congruence.
    - destruct (Hall h i M5' M6) as [Hc _]. contradiction. }
  assert (Rk : forall k, hget b1 k <> None -> rget b1 k = rget b k) by (intros k Hk1; now apply K1).
  assert (Lk : forall k i, lget b1 k = Some i -> lget b k = Some i \/ i = it).
  { intros k i Hl. destruct (hget b1 k) eqn:Ek.
    - left. rewrite <- Hl. symmetry. apply K1. congruence.
    - apply D1 in Ek. congruence. }
  clear L1 E.
  destruct (hget b1 (ikey it)) as [o|] eqn:Eo.
  - assert (El : lget b1 (ikey it) <> None) by (rewrite D1, Eo; discriminate).
    assert (Er : rget b1 (ikey it) <> None) by (rewrite D2, Eo; discriminate).
    assert (HH : forall k, dget k_eq (dset k_eq (b_handles b1) (ikey it) (o ++ added)) k = None <-> hget b1 k = None).
    { intros k. rewrite dget_dset. destruct (k_eq k (ikey it)) as [->|]; [|tauto]. rewrite Eo. split; discriminate. }
    assert (Er' := Rk (ikey it) ltac:(rewrite Eo; discriminate)).
    destruct ar; cbn [b_refs b_lookup b_handles b_items b_counter].
    + destruct (rget b1 (ikey it)) as [r|] eqn:Er2; [|congruence].
      eexists. split; [reflexivity|]. split; [|split; [cbn; congruence|split; [|split; [|split; [|split]]]]].
      * apply FinalInv; cbn [b_refs b_lookup b_handles b_items b_counter]; auto using dset_wf.
        -- intros k. rewrite HH. apply D1.
        -- intros k. rewrite HH, dget_dset. destruct (k_eq k (ikey it)) as [->|]; [|apply D2].
           rewrite Eo. split; discriminate.
        -- intros k Hne. rewrite dget_dset. destruct (k_eq k (ikey it)); [contradiction|reflexivity].
        -- try rewrite Eo. rewrite dget_dset. destruct (k_eq (ikey it) (ikey it)); [reflexivity|congruence].
      * intros h. now apply Vfin.
      * cbn [b_refs b_lookup b_handles b_items b_counter]. intros k Hne Hl. rewrite ?dget_dset in Hl. rewrite ?dget_dset. destruct (k_eq k (ikey it)); [contradiction|]. now apply Rk.
      * cbn [b_refs b_lookup b_handles b_items b_counter]. intros _ r' Hr'. rewrite dget_dset. destruct (k_eq (ikey it) (ikey it)); congruence.
      * intros Hall. specialize (Gone Hall). discriminate.
      * exact Lk.
    + eexists. split; [reflexivity|]. split; [|split; [cbn; congruence|split; [|split; [|split; [|split]]]]].
      * apply FinalInv; cbn [b_refs b_lookup b_handles b_items b_counter]; auto using dset_wf.
        -- intros k. rewrite HH. apply D1.
        -- intros k. rewrite HH. apply D2.
        -- intros k Hne. rewrite dget_dset. destruct (k_eq k (ikey it)); [contradiction|reflexivity].
        -- try rewrite Eo. rewrite dget_dset. destruct (k_eq (ikey it) (ikey it)); [reflexivity|congruence].
      * intros h. now apply Vfin.
      * cbn [b_refs b_lookup b_handles b_items b_counter]. intros k Hne Hl. rewrite ?dget_dset in Hl. rewrite ?dget_dset. destruct (k_eq k (ikey it)); [contradiction|]. now apply Rk.
      * cbn [b_refs b_lookup b_handles b_items b_counter]. intros _ r' Hr'. congruence.
      * intros Hall. specialize (Gone Hall). discriminate.
      * exact Lk.
  - destruct added as [|a added].
    + exists b1. split; [reflexivity|]. split; [|split; [congruence|split; [|split; [|split; [|split]]]]].
      * apply FinalInv; auto.
      * intros h. now apply Vfin.
      * intros k _ Hl. now apply Rk.
      * intros Hs. now elim (Surv Hs).
      * congruence.
      * exact Lk.
    + eexists. split; [reflexivity|]. split; [|split; [cbn; congruence|split; [|split; [|split; [|split]]]]].
      * apply FinalInv; cbn [b_refs b_lookup b_handles b_items b_counter]; auto using dset_wf.
        -- intros k. rewrite !dget_dset. destruct (k_eq k (ikey it)); [split; discriminate|apply D1].
        -- intros k. rewrite !dget_dset. destruct (k_eq k (ikey it)); [split; discriminate|apply D2].
        -- intros k i. rewrite dget_dset. destruct (k_eq k (ikey it)) as [->|]; [intros [= <-]; reflexivity|apply D3].
        -- intros k Hne. rewrite dget_dset. destruct (k_eq k (ikey it)); [contradiction|reflexivity].
        -- try rewrite Eo. rewrite dget_dset. destruct (k_eq (ikey it) (ikey it)); [reflexivity|congruence].
      * intros h. now apply Vfin.
      * cbn [b_refs b_lookup b_handles b_items b_counter]. intros k Hne Hl. rewrite ?dget_dset in Hl. rewrite ?dget_dset. destruct (k_eq k (ikey it)); [contradiction|]. now apply Rk.
      * intros Hs. now elim (Surv Hs).
      * cbn [b_refs b_lookup b_handles b_items b_counter]. intros _ _. rewrite dget_dset. destruct (k_eq (ikey it) (ikey it)); congruence.
      * cbn [b_refs b_lookup b_handles b_items b_counter]. intros k i. rewrite dget_dset.
        destruct (k_eq k (ikey it)); [intros [= <-]; now right|apply Lk].
Qed.

Lemma Inv_empty c : Inv (Bucket [] [] [] [] c).
Proof.
  intros it. constructor; cbn; try apply dwf_nil; try tauto; try discriminate.
  split; [constructor|intros h []].
Qed.

Lemma Inv_refs b k r : Inv b -> rget b k <> None ->
  Inv (Bucket (dset k_eq (b_refs b) k r) (b_lookup b) (b_handles b) (b_items b) (b_counter b)).
Proof.
  intros I H it. destruct (I it). constructor; cbn [b_refs b_lookup b_handles b_items b_counter]; auto using dset_wf.
  intros k'. rewrite dget_dset. destruct (k_eq k' k) as [->|]; [|apply dom_r0].
  split; [discriminate|]. intros Hn. apply dom_r0 in Hn. contradiction.
Qed.

Lemma Inv_rget b k : Inv b -> (rget b k <> None <-> hget b k <> None).
Proof. intros I. destruct (I (Item 0 0)). now rewrite dom_r0. Qed.

Lemma step_Inv b o : Inv b -> Inv (fst (step b o)).
Proof.
  assert (HR : forall b k, Inv b -> Inv (fst (remove_item b k))).
  { clear. intros b k I. destruct (remove_item_spec b k I) as [H1 H2].
    destruct (hget b k) as [hs|] eqn:E.
    - destruct H2 as (b' & -> & I' & _); [congruence|]. exact I'.
    - now rewrite H1. }
  intros I. destruct o as [hs it ih ar|it|h|a n| |a]; cbn [step].
  - destruct (set_item_spec b hs it ih ar I) as (b' & -> & I' & _). exact I'.
  - now apply HR.
  - unfold remove_item_by_handle. destruct (hashable h); cbn [negb]; [|exact I].
    destruct (iget b h); [now apply HR|exact I].
  - assert (HF : forall k r, rget b k <> None -> Inv (fst (
      if r <=? 0 then remove_item (Bucket (dset k_eq (b_refs b) k r) (b_lookup b) (b_handles b) (b_items b) (b_counter b)) k
      else (Bucket (dset k_eq (b_refs b) k r) (b_lookup b) (b_handles b) (b_items b) (b_counter b), OOk)))).
    { intros k r Hr. destruct (r <=? 0); [apply HR|cbn [fst]]; now apply Inv_refs. }
    unfold remove_reference. destruct a as [it|h].
    + destruct (rget b (ikey it)) eqn:E; [|exact I]. apply HF. congruence.
    + destruct (hashable h); cbn [negb]; [|exact I]. destruct (iget b h) as [it|]; [|exact I].
      destruct (rget b (ikey it)) eqn:E; [|exact I]. apply HF. congruence.
  - apply Inv_empty.
  - destruct a as [it|h]; cbn [del_item]; [now apply HR|].
    unfold remove_item_by_handle. destruct (hashable h); cbn [negb]; [|exact I].
    destruct (iget b h) as [it|]; [|exact I].
    specialize (HR b (ikey it) I). destruct (remove_item b (ikey it)) as [b' [| | |]]; exact HR.
Qed.

Lemma run_app b os1 os2 : run b (os1 ++ os2) = run (run b os1) os2.
Proof. apply fold_left_app. Qed.
Lemma run_Inv os : forall b, Inv b -> Inv (run b os).
Proof.
  induction os as [|o os IH]; intros b I; [exact I|]. apply (IH (fst (step b o))). now apply step_Inv.
Qed.
Lemma lookup_iget b h : Inv b -> lookup b h = iget b h.
Proof.
  intros I. unfold lookup. destruct (hashable h) eqn:E; [reflexivity|].
  destruct (iget b h) as [i|] eqn:Ei; [|reflexivity].
  rewrite (hashed _ _ _ (I i) h i Ei) in E. discriminate.
Qed.
