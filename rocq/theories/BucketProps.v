(** Properties of Bucket (C06). *)
From Verif Require Import BucketModel BucketProofs.
Open Scope Z_scope.

(** * Specification
    A bucket is, to its user, a map from handles to items, a reference count
    for each item that has a handle, and the next automatic integer handle.
    Items are compared with [ikey] (Python ==). *)
Record abs := Abs { av : handle -> option item; ar : nat -> Z; ac : Z }.

Definition live (A : abs) (k : nat) : Prop := exists h it, av A h = Some it /\ ikey it = k.

(** the two abstract states cannot be told apart *)
Definition same_abs (A A' : abs) : Prop :=
  (forall h, av A' h = av A h) /\ (forall k, live A k -> ar A' k = ar A k) /\ ac A' = ac A.

(** removing the item [k]: every handle of it goes, nothing else changes *)
Definition spec_remove (A : abs) (k : nat) (A' : abs) (e : outcome) : Prop :=
  (live A k -> e = OOk /\ ac A' = ac A /\
     (forall h it, av A h = Some it -> ikey it = k -> av A' h = None) /\
     (forall h it, av A h = Some it -> ikey it <> k -> av A' h = Some it) /\
     (forall h, av A h = None -> av A' h = None) /\
     (forall k', k' <> k -> ar A' k' = ar A k')) /\
  (~ live A k -> e = OKeyError /\ same_abs A A').

(** taking references away from the item [k], leaving [r] of them *)
Definition spec_unref (A : abs) (k : nat) (r : Z) (A' : abs) (e : outcome) : Prop :=
  (r <= 0 -> spec_remove A k A' e) /\
  (0 < r -> e = OOk /\ ac A' = ac A /\ (forall h, av A' h = av A h) /\ ar A' k = r /\
            forall k', k' <> k -> ar A' k' = ar A k').

Definition spec_step (A : abs) (o : op) (A' : abs) (e : outcome) : Prop :=
  match o with
  | SetItem hs it index_handle add_ref =>
      exists hs', e = OOk /\
        (* a new item also gets the next integer as a handle *)
        ((index_handle = true /\ ~ live A (ikey it) /\ hs' = hs ++ [HInt (ac A)] /\ ac A' = ac A + 1) \/
         ((index_handle = false \/ live A (ikey it)) /\ hs' = hs /\ ac A' = ac A)) /\
        (* the handles now mean the item, all other handles are as before *)
        (forall h, In h hs' -> hashable h = true -> av A' h = Some it) /\
        (forall h, ~ In h hs' \/ hashable h = false -> av A' h = av A h) /\
        (* reference counts *)
        (forall k, k <> ikey it -> live A' k -> ar A' k = ar A k) /\
        ((exists h i, av A h = Some i /\ ikey i = ikey it /\ (~ In h hs' \/ i = it)) ->
           ar A' (ikey it) = if add_ref then ar A (ikey it) + 1 else ar A (ikey it)) /\
        (~ live A (ikey it) -> live A' (ikey it) -> ar A' (ikey it) = 1)
  | RemoveItem it | DelItem (AItem it) => spec_remove A (ikey it) A' e
  | RemoveByHandle h =>
      match av A h with
      | Some it => spec_remove A (ikey it) A' e
      | None => e = (if hashable h then OKeyError else OTypeError) /\ same_abs A A'
      end
  | DelItem (AHandle h) =>
      match av A h with
      | Some it => spec_remove A (ikey it) A' e
      | None => e = OKeyError /\ same_abs A A'
      end
  | RemoveRef (AItem it) n =>
      (live A (ikey it) -> spec_unref A (ikey it) (ar A (ikey it) - n) A' e) /\
      (~ live A (ikey it) -> e = OKeyError /\ same_abs A A')
  | RemoveRef (AHandle h) n =>
      match av A h with
      | Some it => spec_unref A (ikey it) (if n =? 0 then 0 else ar A (ikey it) - n) A' e
      | None => e = (if hashable h then OKeyError else OTypeError) /\ same_abs A A'
      end
  | RemoveAll => e = OOk /\ (forall h, av A' h = None) /\ ac A' = ac A
  end.

(** what a user can observe of a bucket *)
Definition observe (b : bucket) : abs :=
  Abs (lookup b) (fun k => match dget k_eq (b_refs b) k with Some r => r | None => 0 end) (b_counter b).

(** * Proofs that the model meets it *)
Lemma live_hget b k : Inv b -> (live (observe b) k <-> dget k_eq (b_handles b) k <> None).
Proof.
  intros I. rewrite (Inv_hget b k I). unfold live. cbn.
  split; intros (h & i & H & Hk); exists h, i; (split; [|exact Hk]).
  - now rewrite lookup_iget in H.
  - now rewrite lookup_iget.
Qed.
Lemma same_abs_refl A : same_abs A A.
Proof. repeat split. Qed.

Lemma remove_meets b k : Inv b ->
  spec_remove (observe b) k (observe (fst (remove_item b k))) (snd (remove_item b k)).
Proof.
  intros I. destruct (remove_item_spec b k I) as [H1 H2]. split.
  - intros Hl. apply (live_hget b k I) in Hl. destruct (H2 Hl) as (b' & E & I' & C & V & _ & R & _).
    rewrite E. cbn [fst snd observe av ar ac]. split; [reflexivity|]. split; [exact C|].
    split; [|split; [|split]].
    + intros h it Hh Hk. rewrite lookup_iget in * by assumption. rewrite V, Hh. now destruct (k_eq (ikey it) k).
    + intros h it Hh Hk. rewrite lookup_iget in * by assumption. rewrite V, Hh. now destruct (k_eq (ikey it) k).
    + intros h Hh. rewrite lookup_iget in * by assumption. now rewrite V, Hh.
    + intros k' Hk. rewrite R. now destruct (k_eq k' k).
  - intros Hl. rewrite H1.
    + split; [reflexivity|apply same_abs_refl].
    + destruct (dget k_eq (b_handles b) k) eqn:E; [|reflexivity]. elim Hl. apply live_hget; [exact I|congruence].
Qed.

Lemma unref_meets b k r : Inv b -> dget k_eq (b_handles b) k <> None ->
  let res := if r <=? 0
             then remove_item (Bucket (dset k_eq (b_refs b) k r) (b_lookup b) (b_handles b) (b_items b) (b_counter b)) k
             else (Bucket (dset k_eq (b_refs b) k r) (b_lookup b) (b_handles b) (b_items b) (b_counter b), OOk) in
  spec_unref (observe b) k r (observe (fst res)) (snd res).
Proof.
  intros I Hl. set (b1 := Bucket (dset k_eq (b_refs b) k r) (b_lookup b) (b_handles b) (b_items b) (b_counter b)).
  assert (I1 : Inv b1) by (apply Inv_refs; [exact I|now apply Inv_rget]).
  split.
  - intros Hr. apply Z.leb_le in Hr. rewrite Hr.
    destruct (remove_meets b1 k I1) as [M1 _]. split.
    + intros _. destruct M1 as (E & C & V1 & V2 & V3 & R).
      { apply live_hget; [exact I1|exact Hl]. }
      split; [exact E|]. split; [exact C|]. split; [exact V1|]. split; [exact V2|]. split; [exact V3|].
      intros k' Hk. rewrite (R k' Hk). cbn [observe ar b1 b_refs]. rewrite dget_dset.
      destruct (k_eq k' k); [contradiction|reflexivity].
    + intros Hn. elim Hn. now apply live_hget.
  - intros Hr. destruct (Z.leb_spec r 0) as [|_]; [lia|]. cbn [fst snd].
    split; [reflexivity|]. split; [reflexivity|]. split; [reflexivity|]. cbn [observe ar b1 b_refs]. split.
    + rewrite dget_dset. now destruct (k_eq k k).
    + intros k' Hk. rewrite dget_dset. now destruct (k_eq k' k).
Qed.

(** C06: every operation of every history does what the specification says *)
Theorem bucket_refines_handle_map :
  forall (history : list op) (o : op),
    let b := run empty_bucket history in
    spec_step (observe b) o (observe (fst (step b o))) (snd (step b o)).
Proof.
  intros history o b. assert (I : Inv b) by apply run_Inv, Inv_empty.
  destruct o as [hs it ih ar0|it|h|a n| |a]; cbn [step spec_step].
  - destruct (set_item_spec b hs it ih ar0 I) as (b' & E & I' & C & V & R1 & R2 & R3 & _).
    rewrite E. cbn [fst snd].
    remember (match dget k_eq (b_handles b) (ikey it) with Some _ => true | None => false end) as known eqn:Hkn.
    assert (Hkn' : known = true <-> live (observe b) (ikey it)).
    { rewrite live_hget by exact I. subst known. destruct (dget k_eq (b_handles b) (ikey it)); split; congruence. }
    exists (if negb known && ih then hs ++ [HInt (b_counter b)] else hs).
    remember (if negb known && ih then hs ++ [HInt (b_counter b)] else hs) as hs' eqn:Hhs.
    split; [reflexivity|]. cbn [observe av ar ac].
    split; [|split; [|split; [|split; [|split]]]].
    + rewrite C, Hhs. destruct known, ih; cbn [negb andb].
      * right. split; [right; now apply Hkn'|auto].
      * right. auto.
      * left. split; [reflexivity|]. split; [intros Hl; apply Hkn' in Hl; discriminate|auto].
      * right. auto.
    + intros h Hin Hh. rewrite lookup_iget by exact I'. rewrite V.
      destruct (in_dec handle_eq h (filter hashable hs')) as [|Hn]; [reflexivity|].
      elim Hn. apply filter_In. auto.
    + intros h Hn. rewrite !lookup_iget by assumption. rewrite V.
      destruct (in_dec handle_eq h (filter hashable hs')) as [Hin|]; [|reflexivity].
      apply filter_In in Hin. destruct Hin as [H1 H2]. destruct Hn; [contradiction|congruence].
    + intros k Hk Hl. apply live_hget in Hl; [|exact I']. now rewrite (R1 k Hk Hl).
    + intros (h & i & H1 & H2 & H3). rewrite lookup_iget in H1 by exact I.
      assert (Hl : dget k_eq (b_handles b) (ikey it) <> None).
      { apply live_hget; [exact I|]. exists h, i. cbn. now rewrite lookup_iget. }
      destruct (dget k_eq (b_refs b) (ikey it)) as [r|] eqn:Er.
      * rewrite (R2 ltac:(exists h, i; split; [exact H1|]; split; [exact H2|];
                          destruct H3 as [H3|H3]; [left; rewrite filter_In; tauto|now right]) r eq_refl).
        now destruct ar0.
      * apply (Inv_rget b (ikey it) I) in Hl. congruence.
    + intros Hn Hl. apply live_hget in Hl; [|exact I']. rewrite R3; [reflexivity| |exact Hl].
      intros h i H1 H2. elim Hn. exists h, i. cbn. rewrite lookup_iget by exact I. auto.
  - now apply remove_meets.
  - unfold remove_item_by_handle. cbn [observe av]. rewrite lookup_iget by exact I.
    destruct (hashable h) eqn:Hh; cbn [negb].
    + destruct (dget handle_eq (b_items b) h) as [it|]; [now apply remove_meets|]. split; [reflexivity|apply same_abs_refl].
    + destruct (dget handle_eq (b_items b) h) as [it|] eqn:E.
      * rewrite (hashed _ _ _ (I it) h it E) in Hh. discriminate.
      * split; [reflexivity|apply same_abs_refl].
  - unfold remove_reference. destruct a as [it|h].
    + split; intros Hl.
      * rewrite live_hget in Hl by exact I. pose proof Hl as Hl'. apply (Inv_rget b (ikey it) I) in Hl'.
        cbn [observe ar]. destruct (dget k_eq (b_refs b) (ikey it)) as [r|]; [|congruence].
        now apply unref_meets.
      * destruct (dget k_eq (b_refs b) (ikey it)) as [r|] eqn:Er.
        -- elim Hl. apply live_hget; [exact I|]. apply Inv_rget; [exact I|congruence].
        -- split; [reflexivity|apply same_abs_refl].
    + cbn [observe av]. rewrite lookup_iget by exact I.
      destruct (dget handle_eq (b_items b) h) as [it|] eqn:E.
      * rewrite (hashed _ _ _ (I it) h it E). cbn [negb].
        assert (Hl : dget k_eq (b_handles b) (ikey it) <> None).
        { apply live_hget; [exact I|]. exists h, it. cbn. now rewrite lookup_iget. }
        pose proof Hl as Hl'. apply (Inv_rget b (ikey it) I) in Hl'. cbn [ar observe].
        destruct (dget k_eq (b_refs b) (ikey it)) as [r|]; [|congruence]. now apply unref_meets.
      * destruct (hashable h); (split; [reflexivity|apply same_abs_refl]).
  - split; [reflexivity|]. split; [|reflexivity]. intros h. cbn [fst observe av]. unfold lookup. destruct (hashable h); reflexivity.
  - destruct a as [it|h]; cbn [del_item]; [now apply remove_meets|].
    unfold remove_item_by_handle. cbn [observe av]. rewrite lookup_iget by exact I.
    destruct (dget handle_eq (b_items b) h) as [it|] eqn:E.
    + rewrite (hashed _ _ _ (I it) h it E). cbn [negb].
      pose proof (remove_meets b (ikey it) I) as M.
      assert (Hl : dget k_eq (b_handles b) (ikey it) <> None).
      { apply live_hget; [exact I|]. exists h, it. cbn. now rewrite lookup_iget. }
      destruct (remove_item_spec b (ikey it) I) as [_ H2]. destruct (H2 Hl) as (b' & E' & _).
      rewrite E' in *. exact M.
    + destruct (hashable h); (split; [reflexivity|apply same_abs_refl]).
Qed.
Print Assumptions bucket_refines_handle_map.

Definition a1 := Item 1 10. Definition a2 := Item 2 20.
Example bucket_history_nonvacuous :
  let b := run empty_bucket [SetItem [HObj 7; HObj 8] a1 true false; SetItem [HObj 8] a2 true true;
                             RemoveRef (AHandle (HObj 9)) 1; SetItem [] a2 true true; RemoveRef (AItem a2) 1;
                             RemoveItem a1] in
  lookup b (HObj 7) = None /\ lookup b (HObj 8) = Some a2 /\ lookup b (HInt 0) = None /\
  lookup b (HInt 1) = Some a2 /\ b_counter b = 2 /\ bucket_len b = 1%nat.
Proof. vm_compute. repeat split. Qed.

(** C06: what items(), get_primary_handles(), len() and "in" show is consistent
    with looking handles up *)
Theorem bucket_listing_consistent :
  forall (history : list op),
    let b := run empty_bucket history in
    (* items(): every listed item has handles, without repeats, and each of
       them looks up an equal item *)
    (forall ohs it, In (ohs, it) (bucket_items b) ->
       exists hs, ohs = Some hs /\ hs <> [] /\ NoDup hs /\
         forall h, In h hs -> exists it', lookup b h = Some it' /\ ikey it' = ikey it) /\
    (* every handle that can be looked up is listed exactly with its item *)
    (forall h it, lookup b h = Some it ->
       exists hs it', In (Some hs, it') (bucket_items b) /\ ikey it' = ikey it /\ In h hs) /\
    (* no handle belongs to two listed items, no item is listed twice *)
    (forall hs1 it1 hs2 it2 h, In (Some hs1, it1) (bucket_items b) -> In (Some hs2, it2) (bucket_items b) ->
       In h hs1 -> In h hs2 -> it1 = it2) /\
    NoDup (map (fun e => ikey (snd e)) (bucket_items b)) /\
    bucket_len b = length (bucket_items b) /\
    (* get_primary_handles() never fails *)
    (forall o, In o (primary_handles b) -> exists h it, o = Some h /\ lookup b h = Some it) /\
    (* membership *)
    (forall it, contains_item b it = true <-> exists h it', lookup b h = Some it' /\ ikey it' = ikey it).
Proof.
  intros history b. assert (I : Inv b) by apply run_Inv, Inv_empty. destruct (I (Item 0 0)).
  assert (Hin : forall ohs it, In (ohs, it) (bucket_items b) <->
            dget k_eq (b_lookup b) (ikey it) = Some it /\ ohs = dget k_eq (b_handles b) (ikey it)).
  { intros ohs it. unfold bucket_items. rewrite in_map_iff. split.
    - intros ([k i] & E & Hk). injection E as <- <-. apply (dget_wf_In k_eq) in Hk; [|exact wf_l].
      pose proof (l_key _ _ Hk) as <-. auto.
    - intros [H ->]. exists (ikey it, it). split; [reflexivity|]. now apply dget_In in H. }
  assert (Hlook : forall h it, lookup b h = Some it ->
            exists hs it', In (Some hs, it') (bucket_items b) /\ ikey it' = ikey it /\ In h hs).
  { intros h it H. rewrite lookup_iget in H by exact I.
    destruct (it_ok h it H) as [[[] _]|[_ (hs & H1 & H2)]].
    destruct (dget k_eq (b_lookup b) (ikey it)) as [i|] eqn:El.
    - pose proof (l_key _ _ El) as Hk. exists hs, i. rewrite Hin, Hk. auto.
    - apply dom_l in El. congruence. }
  assert (Hlist : forall ohs it, In (ohs, it) (bucket_items b) ->
       exists hs, ohs = Some hs /\ hs <> [] /\ NoDup hs /\
         forall h, In h hs -> exists it', lookup b h = Some it' /\ ikey it' = ikey it).
  { intros ohs it H. apply Hin in H. destruct H as [H ->].
    destruct (dget k_eq (b_handles b) (ikey it)) as [hs|] eqn:Eh; [|apply dom_l in Eh; congruence].
    destruct (hs_ok _ _ Eh) as (N1 & N2 & N3). exists hs. repeat split; auto.
    intros h Hh. destruct (N3 h Hh) as (_ & i & H1 & H2). exists i. rewrite lookup_iget by exact I. auto. }
  split; [exact Hlist|]. split; [exact Hlook|]. split; [|split; [|split; [|split]]].
  - intros hs1 it1 hs2 it2 h H1 H2 Hh1 Hh2.
    destruct (Hlist _ _ H1) as (hs1' & E1 & _ & _ & L1). destruct (Hlist _ _ H2) as (hs2' & E2 & _ & _ & L2).
    injection E1 as <-. injection E2 as <-.
    destruct (L1 h Hh1) as (i1 & P1 & P2). destruct (L2 h Hh2) as (i2 & P3 & P4).
    apply Hin in H1. apply Hin in H2. destruct H1 as [H1 _], H2 as [H2 _]. congruence.
  - assert (E : map (fun e : option (list handle) * item => ikey (snd e)) (bucket_items b) = dkeys (b_lookup b)).
    { unfold bucket_items, dkeys. rewrite map_map. apply map_ext_in. intros [k i] Hki. cbn.
      apply (l_key k i). now apply dget_wf_In. }
    rewrite E. exact wf_l.
  - unfold bucket_len, bucket_items. now rewrite map_length.
  - intros o Ho. unfold primary_handles in Ho. apply in_map_iff in Ho. destruct Ho as (hs & <- & Hhs).
    unfold dvals in Hhs. apply in_map_iff in Hhs. destruct Hhs as ([k hs'] & <- & Hk). cbn [snd].
    apply (dget_wf_In k_eq) in Hk; [|exact wf_h]. destruct (hs_ok _ _ Hk) as (N1 & _ & N3).
    destruct hs' as [|h hs']; [congruence|]. destruct (N3 h) as (_ & i & H1 & _); [now left|].
    exists h, i. rewrite lookup_iget by exact I. auto.
  - intros it. unfold contains_item, dmem. rewrite <- (Inv_hget b (ikey it) I) at 1 || idtac.
    transitivity (dget k_eq (b_handles b) (ikey it) <> None).
    + destruct (dget k_eq (b_handles b) (ikey it)); split; congruence.
    + exact (iff_sym (live_hget b (ikey it) I)).
Qed.
Print Assumptions bucket_listing_consistent.

(** When equal items are the same object (the documented use), items() lists
    exactly what lookups return. *)
Definition op_item (o : op) : option item := match o with SetItem _ it _ _ => Some it | _ => None end.

Theorem bucket_listing_exact :
  forall (ident : nat -> nat) (history : list op),
    (forall o it, In o history -> op_item o = Some it -> iid it = ident (ikey it)) ->
    let b := run empty_bucket history in
    forall h it, lookup b h = Some it <-> exists hs, In (Some hs, it) (bucket_items b) /\ In h hs.
Proof.
  intros ident history Hid b. 
  assert (HI : Inv b /\ (forall h i, dget handle_eq (b_items b) h = Some i -> iid i = ident (ikey i)) /\
               (forall k i, dget k_eq (b_lookup b) k = Some i -> iid i = ident (ikey i))).
  { subst b. induction history as [|o os IH] using rev_ind.
    - split; [apply Inv_empty|]. split; discriminate.
    - destruct IH as (I & H1 & H2). { intros o' it' Hin. apply Hid. apply in_app_iff. now left. }
      rewrite run_app. cbn [run fold_left]. set (b := run empty_bucket os) in *.
      split; [now apply step_Inv|].
      assert (RM : forall b k, Inv b -> (forall h i, dget handle_eq (b_items b) h = Some i -> iid i = ident (ikey i)) ->
         (forall k i, dget k_eq (b_lookup b) k = Some i -> iid i = ident (ikey i)) ->
         (forall h i, dget handle_eq (b_items (fst (remove_item b k))) h = Some i -> iid i = ident (ikey i)) /\
         (forall k' i, dget k_eq (b_lookup (fst (remove_item b k))) k' = Some i -> iid i = ident (ikey i))).
      { clear. intros b k I H1 H2. destruct (remove_item_spec b k I) as [Q1 Q2].
        destruct (dget k_eq (b_handles b) k) eqn:E.
        - destruct Q2 as (b' & -> & _ & _ & V & _ & _ & L); [congruence|]. cbn [fst]. split.
          + intros h i. rewrite V. destruct (dget handle_eq (b_items b) h) as [i'|] eqn:Ei; [|discriminate].
            destruct (k_eq (ikey i') k); [discriminate|]. intros [= <-]. eauto.
          + eauto.
        - rewrite Q1 by reflexivity. auto. }
      assert (RF : forall k r, dget k_eq (b_refs b) k <> None ->
         let b' := fst (if r <=? 0 then remove_item (Bucket (dset k_eq (b_refs b) k r) (b_lookup b) (b_handles b) (b_items b) (b_counter b)) k
           else (Bucket (dset k_eq (b_refs b) k r) (b_lookup b) (b_handles b) (b_items b) (b_counter b), OOk)) in
         (forall h i, dget handle_eq (b_items b') h = Some i -> iid i = ident (ikey i)) /\
         (forall k' i, dget k_eq (b_lookup b') k' = Some i -> iid i = ident (ikey i))).
      { intros k r Hr. destruct (r <=? 0); [|cbn; auto]. apply RM; auto. now apply Inv_refs. }
      destruct o as [hs it ih ar0|it|h|a n| |a]; cbn [step].
      + destruct (set_item_spec b hs it ih ar0 I) as (b' & E & _ & _ & V & _ & _ & _ & L). rewrite E. cbn [fst].
        assert (Hit : iid it = ident (ikey it)).
        { apply (Hid (SetItem hs it ih ar0)); [apply in_app_iff; right; now left|reflexivity]. }
        split.
        * intros h i. rewrite V. destruct (in_dec _ _ _); [intros [= <-]; exact Hit|eauto].
        * intros k i Hl. destruct (L k i Hl) as [Hl'| ->]; eauto.
      + now apply RM.
      + unfold remove_item_by_handle. destruct (negb (hashable h)); [auto|].
        destruct (dget handle_eq (b_items b) h); [now apply RM|auto].
      + unfold remove_reference. destruct a as [it|h].
        * destruct (dget k_eq (b_refs b) (ikey it)) eqn:E; [|auto]. apply RF. congruence.
        * destruct (negb (hashable h)); [auto|]. destruct (dget handle_eq (b_items b) h) as [it|]; [|auto].
          destruct (dget k_eq (b_refs b) (ikey it)) eqn:E; [|auto]. apply RF. congruence.
      + split; discriminate.
      + destruct a as [it|h]; cbn [del_item]; [now apply RM|]. unfold remove_item_by_handle.
        destruct (negb (hashable h)); [auto|]. destruct (dget handle_eq (b_items b) h) as [it|]; [|auto].
        specialize (RM b (ikey it) I H1 H2). destruct (remove_item b (ikey it)) as [b' [| | |]]; exact RM. }
  destruct HI as (I & H1 & H2).
  destruct (bucket_listing_consistent history) as (L1 & L2 & _). fold b in L1, L2.
  intros h it. split.
  - intros Hl. destruct (L2 h it Hl) as (hs & it' & P1 & P2 & P3). exists hs. split; [|exact P3].
    enough (it' = it) by congruence. destruct it as [k i], it' as [k' i']. cbn in P2. subst k'. f_equal.
    unfold bucket_items in P1. apply in_map_iff in P1. destruct P1 as ([k0 it0] & E & P1).
    injection E as E1 E2. subst it0. apply (dget_wf_In k_eq) in P1; [|apply (wf_l _ _ _ (I (Item 0 0)))].
    rewrite lookup_iget in Hl by exact I. apply H1 in Hl. apply H2 in P1. cbn in *. congruence.
  - intros (hs & P1 & P2). destruct (L1 _ _ P1) as (hs' & E & _ & _ & P3). injection E as <-.
    destruct (P3 h P2) as (it' & P4 & P5). rewrite P4. f_equal.
    destruct it as [k i], it' as [k' i']. cbn in P5. subst k'. f_equal.
    unfold bucket_items in P1. apply in_map_iff in P1. destruct P1 as ([k0 it0] & E & P1).
    injection E as E1 E2. subst it0. apply (dget_wf_In k_eq) in P1; [|apply (wf_l _ _ _ (I (Item 0 0)))].
    rewrite lookup_iget in P4 by exact I. apply H1 in P4. apply H2 in P1. cbn in *. congruence.
Qed.
Print Assumptions bucket_listing_exact.

Example bucket_listing_exact_nonvacuous :
  let history := [SetItem [HObj 7; HObj 8] a1 true false; SetItem [HObj 8] a2 true true] in
  (forall o it, In o history -> op_item o = Some it -> iid it = (10 * ikey it)%nat) /\
  bucket_items (run empty_bucket history) = [(Some [HObj 7; HInt 0], a1); (Some [HObj 8; HInt 1], a2)].
Proof.
  split; [|vm_compute; reflexivity].
  intros o it [<-|[<-|[]]] [= <-]; reflexivity.
Qed.

(** a failed operation changes nothing at all *)
Theorem bucket_failed_operation_changes_nothing :
  forall (history : list op) (o : op),
    let b := run empty_bucket history in
    snd (step b o) <> OOk -> fst (step b o) = b.
Proof.
  intros history o b. assert (I : Inv b) by apply run_Inv, Inv_empty.
  assert (RM : forall b k, Inv b -> snd (remove_item b k) <> OOk -> fst (remove_item b k) = b).
  { clear. intros b k I. destruct (remove_item_spec b k I) as [Q1 Q2].
    destruct (dget k_eq (b_handles b) k) eqn:E.
    - destruct Q2 as (b' & -> & _); [congruence|]. now intros [].
    - now rewrite Q1. }
  assert (RF : forall k r, dget k_eq (b_refs b) k <> None ->
     snd (if r <=? 0 then remove_item (Bucket (dset k_eq (b_refs b) k r) (b_lookup b) (b_handles b) (b_items b) (b_counter b)) k
       else (Bucket (dset k_eq (b_refs b) k r) (b_lookup b) (b_handles b) (b_items b) (b_counter b), OOk)) = OOk).
  { intros k r Hr. destruct (r <=? 0); [|reflexivity].
    destruct (remove_item_spec _ k (Inv_refs b k r I Hr)) as [_ Q2]. destruct Q2 as (b' & -> & _); [|reflexivity].
    cbn. now apply Inv_rget. }
  destruct o as [hs it ih ar0|it|h|a n| |a]; cbn [step].
  - destruct (set_item_spec b hs it ih ar0 I) as (b' & -> & _). now intros [].
  - now apply RM.
  - unfold remove_item_by_handle. destruct (negb (hashable h)); [auto|].
    destruct (dget handle_eq (b_items b) h); [now apply RM|auto].
  - unfold remove_reference. destruct a as [it|h].
    + destruct (dget k_eq (b_refs b) (ikey it)) eqn:E; [|auto]. rewrite RF by congruence. now intros [].
    + destruct (negb (hashable h)); [auto|]. destruct (dget handle_eq (b_items b) h) as [it|]; [|auto].
      destruct (dget k_eq (b_refs b) (ikey it)) eqn:E; [|auto]. rewrite RF by congruence. now intros [].
  - now intros [].
  - destruct a as [it|h]; cbn [del_item]; [now apply RM|]. unfold remove_item_by_handle.
    destruct (negb (hashable h)); [auto|]. destruct (dget handle_eq (b_items b) h) as [it|]; [|auto].
    specialize (RM b (ikey it) I). destruct (remove_item b (ikey it)) as [b' [| | |]]; cbn in *; auto;
      intros _; apply RM; discriminate.
Qed.
Print Assumptions bucket_failed_operation_changes_nothing.

(** an automatic handle is handed out at most once: after an operation that
    handed out the integer z, every later automatic handle is larger *)
Definition hands_out (b : bucket) (o : op) (z : Z) : Prop :=
  exists hs it add_ref caller e, o = SetItem hs it true add_ref /\
    set_item b hs it true add_ref = (fst (step b o), caller, e) /\ caller = hs ++ [HInt z].

Theorem bucket_auto_handles_never_reused :
  forall (history1 history2 : list op) (o1 o2 : op) (z1 z2 : Z),
    hands_out (run empty_bucket history1) o1 z1 ->
    hands_out (run empty_bucket (history1 ++ [o1] ++ history2)) o2 z2 ->
    z1 < z2.
Proof.
  assert (Mono : forall b o, Inv b -> b_counter b <= b_counter (fst (step b o))).
  { intros b o I.
    assert (RM : forall b k, b_counter (fst (remove_item b k)) = b_counter b).
    { clear. intros b k. unfold remove_item. destruct (dget k_eq (b_handles b) k); [|reflexivity].
      destruct (del_items _ _) as [i [| | |]]; try reflexivity.
      destruct (dget k_eq (b_lookup b) k); [|reflexivity]. destruct (dget k_eq (b_refs b) k); reflexivity. }
    destruct o as [hs it ih ar0|it|h|a n| |a]; cbn [step].
    - destruct (set_item_spec b hs it ih ar0 I) as (b' & -> & _ & C & _). cbn [fst]. rewrite C.
      destruct (negb _ && ih); lia.
    - rewrite RM. lia.
    - unfold remove_item_by_handle. destruct (negb (hashable h)); [cbn; lia|].
      destruct (dget handle_eq (b_items b) h); [rewrite RM|cbn]; lia.
    - unfold remove_reference. destruct a as [it|h].
      + destruct (dget k_eq (b_refs b) (ikey it)); [|cbn; lia]. destruct (_ <=? 0); [rewrite RM|]; cbn; lia.
      + destruct (negb (hashable h)); [cbn; lia|]. destruct (dget handle_eq (b_items b) h) as [it|]; [|cbn; lia].
        destruct (dget k_eq (b_refs b) (ikey it)); [|cbn; lia].
        match goal with |- context [if ?c then remove_item _ _ else _] => destruct c end; [rewrite RM|]; cbn; lia.
    - cbn. lia.
    - destruct a as [it|h]; cbn [del_item]; [rewrite RM; lia|]. unfold remove_item_by_handle.
      destruct (negb (hashable h)); [cbn; lia|]. destruct (dget handle_eq (b_items b) h) as [it|]; [|cbn; lia].
      specialize (RM b (ikey it)). destruct (remove_item b (ikey it)) as [b' [| | |]]; cbn in *; lia. }
  assert (MonoRun : forall os b, Inv b -> b_counter b <= b_counter (run b os)).
  { induction os as [|o os IH]; intros b I; [cbn; lia|]. cbn [run fold_left].
    specialize (Mono b o I). specialize (IH _ (step_Inv b o I)). unfold run in *. lia. }
  assert (HO : forall b o z, Inv b -> hands_out b o z -> z = b_counter b /\ b_counter (fst (step b o)) = z + 1).
  { intros b o z I (hs & it & add & caller & e & -> & E & ->).
    destruct (set_item_spec b hs it true add I) as (b' & E' & _ & C & _). 
    assert (Es : fst (step b (SetItem hs it true add)) = b') by (cbn [step]; now rewrite E').
    rewrite E' in E. injection E as E1 E2 E3.
    rewrite Es, C. rewrite andb_true_r in *.
    destruct (negb _); [|exfalso; apply (f_equal (@length _)) in E2; rewrite app_length in E2; cbn in E2; lia].
    apply app_inj_tail in E2. destruct E2 as [_ [= ->]]. auto. }
  intros h1 h2 o1 o2 z1 z2 H1 H2.
  assert (I1 : Inv (run empty_bucket h1)) by apply run_Inv, Inv_empty.
  destruct (HO _ _ _ I1 H1) as [-> E1].
  rewrite run_app, run_app in H2. cbn [run fold_left] in H2.
  assert (I2 := step_Inv _ o1 I1).
  destruct (HO _ _ _ (run_Inv h2 _ I2) H2) as [-> _].
  specialize (MonoRun h2 _ I2). unfold run in *. lia.
Qed.
Print Assumptions bucket_auto_handles_never_reused.

Example bucket_auto_handles_nonvacuous :
  hands_out (run empty_bucket []) (SetItem [HObj 3] a1 true false) 0 /\
  hands_out (run empty_bucket ([] ++ [SetItem [HObj 3] a1 true false] ++ [RemoveAll])) (SetItem [] a1 true false) 1.
Proof.
  split.
  - exists [HObj 3], a1, false, [HObj 3; HInt 0], OOk. vm_compute. repeat split.
  - exists [], a1, false, [HInt 1], OOk. vm_compute. repeat split.
Qed.

(** a handle means the item it was last given to until it is given away or the
    item is removed *)
Definition gives (h : handle) (b : bucket) (o : op) : Prop :=
  match o with SetItem hs it ih _ => In h hs \/ h = HInt (b_counter b) | _ => True end.

Theorem bucket_last_assignment_wins :
  forall (before after : list op) (hs : list handle) (it : item) (ih ar : bool) (h : handle),
    In h hs -> hashable h = true ->
    (* no later operation removes anything or gives h (or the integer h) away *)
    (forall pre o post, after = pre ++ o :: post ->
       ~ gives h (run empty_bucket (before ++ [SetItem hs it ih ar] ++ pre)) o) ->
    lookup (run empty_bucket (before ++ [SetItem hs it ih ar] ++ after)) h = Some it.
Proof.
  intros before after hs it ih ar0 h Hin Hh.
  induction after as [|o after IH] using rev_ind; intros Hno.
  - rewrite app_nil_r, run_app. cbn [run fold_left].
    pose proof (bucket_refines_handle_map before (SetItem hs it ih ar0)) as (hs' & _ & Hc & V & _).
    apply V; [|exact Hh]. destruct Hc as [(_ & _ & -> & _)|(_ & -> & _)]; [apply in_app_iff; now left|exact Hin].
  - rewrite !app_assoc, run_app. cbn [run fold_left]. rewrite <- app_assoc.
    assert (IH' := IH ltac:(intros pre o' post E; apply (Hno pre o' (post ++ [o])); rewrite E, <- app_assoc; reflexivity)).
    specialize (Hno after o [] eq_refl). cbn [app] in *.
    set (b := run empty_bucket (before ++ SetItem hs it ih ar0 :: after)) in *.
    destruct o as [hs2 it2 ih2 ar2| | | | |]; try (elim Hno; exact Logic.I).
    pose proof (bucket_refines_handle_map (before ++ SetItem hs it ih ar0 :: after) (SetItem hs2 it2 ih2 ar2)) as (hs' & _ & Hc & _ & V & _).
    fold b in Hc, V. change (fold_left (fun (b : bucket) (o : op) => fst (step b o)) (before ++ SetItem hs it ih ar0 :: after) empty_bucket) with b.
    cbn [observe av] in V. rewrite V; [exact IH'|]. left. cbn [gives] in Hno.
    destruct Hc as [(_ & _ & -> & _)|(_ & -> & _)]; [|tauto].
    rewrite in_app_iff. cbn. intros [H|[H|[]]]; apply Hno; [now left|right; now rewrite <- H].
Qed.
Print Assumptions bucket_last_assignment_wins.

Example bucket_last_assignment_nonvacuous :
  lookup (run empty_bucket ([SetItem [HObj 1] a1 true false] ++ [SetItem [HObj 1] a2 true false] ++ [SetItem [HObj 2] a1 true false])) (HObj 1) = Some a2 /\
  ~ gives (HObj 1) (run empty_bucket [SetItem [HObj 1] a1 true false; SetItem [HObj 1] a2 true false]) (SetItem [HObj 2] a1 true false).
Proof. split; [reflexivity|]. cbn. intros [[H|[]]|H]; discriminate. Qed.

(** * Where Bucket does not do what a user expects *)

(** An automatic integer handle can equal an integer the user chose: adding an
    unrelated item then silently removes the user's item. *)
Theorem bucket_auto_handle_collision_refuted :
  exists (user_handle : Z) (i1 i2 : item), i1 <> i2 /\
    let b1 := fst (step empty_bucket (SetItem [HInt user_handle] i1 false false)) in
    let b2 := fst (step b1 (SetItem [HObj 0] i2 true false)) in
    contains_item b1 i1 = true /\ lookup b1 (HInt user_handle) = Some i1 /\
    contains_item b2 i1 = false /\ lookup b2 (HInt user_handle) = Some i2.
Proof. exists 0, a1, a2. split; [discriminate|]. vm_compute. repeat split. Qed.
Print Assumptions bucket_auto_handle_collision_refuted.

(** set_item extends the caller's list, so using one list twice hands the first
    item's automatic handle to the second item and drops the first. *)
Theorem bucket_mutates_callers_list_refuted :
  exists (hs : list handle) (i1 i2 : item),
    let '(b1, hs1, _) := set_item empty_bucket hs i1 true false in
    let '(b2, _, _) := set_item b1 hs1 i2 true false in          (* same list object *)
    let '(b2', _, _) := set_item b1 hs i2 true false in          (* a fresh list with the same contents *)
    hs1 <> hs /\ contains_item b2 i1 = false /\ contains_item b2' i1 = true.
Proof. exists [HObj 0], a1, a2. vm_compute. repeat split. discriminate. Qed.
Print Assumptions bucket_mutates_callers_list_refuted.

(** Two distinct objects that compare equal: the second is reachable by its
    handle but items() lists the first one under that handle. *)
Theorem bucket_equal_items_refuted :
  exists (i1 i2 : item) (h1 h2 : handle), i1 <> i2 /\
    let b := run empty_bucket [SetItem [h1] i1 false false; SetItem [h2] i2 false false] in
    lookup b h2 = Some i2 /\ bucket_items b = [(Some [h1; h2], i1)].
Proof. exists (Item 1 1), (Item 1 2), (HObj 1), (HObj 2). split; [discriminate|]. vm_compute. repeat split. Qed.
Print Assumptions bucket_equal_items_refuted.
