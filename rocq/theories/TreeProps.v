(** Properties of inherited info (C07) and of Node.time / find_attr (C41, C42). *)
From Verif Require Import TreeModel TreeProofs.
Open Scope nat_scope.

(** * Specification
    [walk parents x y d] (TreeProofs.v): y is reached from x by following d
    parent links.  [level parents x d] lists the d-th generation of ancestors in
    the order of the parent lists (level 0 is x itself).
    A finite object graph: [U] contains the node and is closed under parents. *)
Definition finite_graph (parents : node -> list node) (self : node) (U : list node) : Prop :=
  In self U /\ forall x y, In x U -> In y (parents x) -> In y U.

Section P.
Context {K V : Type} (K_eq : forall a b : K, {a = b} + {a <> b}).
Variable parents : node -> list node.
Implicit Type I : @infos K V.

(** the owner is the first node with the key in the first generation that has one *)
Definition nearest_owner I (self : node) (k : K) (n : node) : Prop :=
  exists d before after, level parents self d = before ++ n :: after /\
    dget K_eq (I n) k <> None /\
    (forall x, In x before -> dget K_eq (I x) k = None) /\
    (forall d' x, d' < d -> walk parents self x d' -> dget K_eq (I x) k = None).
Definition nobody_has I (self : node) (k : K) : Prop :=
  forall d x, walk parents self x d -> dget K_eq (I x) k = None.

Lemma has_false I n k : has_info K_eq I n k = false <-> dget K_eq (I n) k = None.
Proof. unfold has_info, dmem. destruct (dget K_eq (I n) k); split; congruence. Qed.

Lemma find_split {A} (f : A -> bool) l x : find f l = Some x ->
  exists b a, l = b ++ x :: a /\ f x = true /\ forall y, In y b -> f y = false.
Proof.
  induction l as [|y l IH]; cbn; [discriminate|]. destruct (f y) eqn:E.
  - intros [= <-]. exists [], l. repeat split; auto. intros z [].
  - intros H. destruct (IH H) as (b & a & -> & H1 & H2). exists (y :: b), a. repeat split; auto.
    intros z [<-|Hz]; auto.
Qed.

Lemma owner_cases I self k U : finite_graph parents self U ->
  (exists n, nearest_owner I self k n /\ forall fuel, length U < fuel -> find_info_owner K_eq parents fuel I self k = ROk n) \/
  (nobody_has I self k /\ forall fuel, length U < fuel -> find_info_owner K_eq parents fuel I self k = RKeyError).
Proof.
  intros [Hs Hcl]. set (c := fun o => has_info K_eq I o k).
  assert (Hreach : (exists x, In x U /\ c x = true /\ exists d, walk parents self x d) \/
                   (forall x d, walk parents self x d -> c x = false)).
  { (* search U, restricted to reachable nodes, for an owner: use the levels up to length U *)
    destruct (find (fun d => match find c (level parents self d) with Some _ => true | None => false end) (seq 0 (S (length U)))) as [d|] eqn:E.
    - apply find_some in E. destruct E as [_ E]. destruct (find c (level parents self d)) as [x|] eqn:Ex; [|discriminate].
      apply find_some in Ex. destruct Ex as [Ex Hc]. left. exists x. split.
      + exact (level_closed parents self U Hs Hcl d x Ex).
      + split; [exact Hc|]. exists d. now apply level_walk.
    - right. intros x d Hw. destruct (c x) eqn:Hc; [|reflexivity]. exfalso.
      destruct (min_level parents c self U Hs Hcl) as (m & n & _ & Hm & Hle).
      + exists d. destruct (find c (level parents self d)) as [n|] eqn:Ef; [now exists n|].
        apply level_walk in Hw. pose proof (find_none _ _ Ef x Hw). congruence.
      + pose proof (find_none _ _ E m ltac:(apply in_seq; lia)) as H. cbn beta in H. rewrite Hm in H. discriminate. }
  destruct Hreach as [(x & _ & Hc & d & Hw)|Hno].
  - left. destruct (min_level parents c self U Hs Hcl) as (m & n & Hlt & Hm & Hle).
    { exists d. apply level_walk in Hw. destruct (find c (level parents self d)) as [n|] eqn:Ef; [now exists n|].
      pose proof (find_none _ _ Ef x Hw). congruence. }
    exists n. split.
    + destruct (find_split c _ n Hm) as (b & a & E & Hn & Hb). exists m, b, a. split; [exact E|]. split; [|split].
      * intros H. apply has_false in H. unfold c in Hn. congruence.
      * intros y Hy. apply has_false. now apply Hb.
      * intros d' y Hd' Hy. apply has_false. apply level_walk in Hy. exact (find_none _ _ (Hlt d' Hd') y Hy).
    + intros fuel Hf. unfold find_info_owner.
      assert (E : snd (parent_bfs parents (fun (_ : unit) o => (tt, has_info K_eq I o k)) fuel tt self) = BFound n)
        by (apply (bfs_hit parents c fuel self m n Hlt Hm); lia).
      now rewrite E.
  - right. split; [intros d x Hw; apply has_false, (Hno x d Hw)|].
    intros fuel Hf. unfold find_info_owner.
    (* restrict c to false outside the reachable part by using the reachable sublist of U *)
    assert (E : snd (parent_bfs parents (fun (_ : unit) o => (tt, has_info K_eq I o k)) fuel tt self) = BNone).
    { (* the search only looks at reachable nodes, where c is false: use the reachable part of U *)
      assert (Hf' : exists U', In self U' /\ (forall x y, In x U' -> In y (parents x) -> In y U') /\
                 (forall x, In x U' -> c x = false) /\ length U' <= length U).
      { exists (filter (fun x => if in_dec n_eq x (flat_map (level parents self) (seq 0 (S (length U)))) then true else false) U).
        assert (Hr : forall x, In x (flat_map (level parents self) (seq 0 (S (length U)))) <-> exists d, walk parents self x d).
        { intros x. rewrite in_flat_map. split.
          - intros (d & _ & Hd). exists d. now apply level_walk.
          - intros (d & Hd).
            destruct (min_level parents (Nat.eqb x) self U Hs Hcl) as (m & n & _ & Hm & Hle).
            + exists d. apply level_walk in Hd. destruct (find (Nat.eqb x) (level parents self d)) as [n|] eqn:Ef; [now exists n|].
              pose proof (find_none _ _ Ef x Hd) as H. rewrite Nat.eqb_refl in H. discriminate.
            + exists m. split; [apply in_seq; lia|]. apply find_some in Hm. destruct Hm as [Hm Hx].
              apply Nat.eqb_eq in Hx. now subst n. }
        split; [|split; [|split]].
        - apply filter_In. split; [exact Hs|]. destruct (in_dec _ _ _) as [|Hn]; [reflexivity|].
          elim Hn. apply Hr. exists 0. constructor.
        - intros x y Hx Hy. apply filter_In in Hx. destruct Hx as [Hx1 Hx2].
          destruct (in_dec _ _ _) as [Hin|] in Hx2; [|discriminate]. apply Hr in Hin. destruct Hin as (d & Hd).
          apply filter_In. split; [exact (Hcl x y Hx1 Hy)|]. destruct (in_dec _ _ _) as [|Hn]; [reflexivity|].
          elim Hn. apply Hr. exists (S d). econstructor; eauto.
        - intros x Hx. apply filter_In in Hx. destruct Hx as [_ Hx2].
          destruct (in_dec _ _ _) as [Hin|] in Hx2; [|discriminate]. apply Hr in Hin. destruct Hin as (d & Hd).
          exact (Hno x d Hd).
        - generalize (fun x : nat => if in_dec n_eq x (flat_map (level parents self) (seq 0 (S (length U)))) then true else false).
          clear. intros f. induction U as [|x U IH]; cbn; [lia|]. destruct (f x); cbn; lia. }
      destruct Hf' as (U' & A1 & A2 & A3 & A4).
      apply (loop_nohit' parents c U'); auto. lia. }
    now rewrite E.
Qed.
End P.

(** C07: the search always ends (no fuel dependence beyond the number of nodes,
    for cyclic graphs too) and finds the nearest owner; KeyError exactly when no
    ancestor has the key. *)
Theorem find_info_nearest_owner :
  forall (K V : Type) (K_eq : forall a b : K, {a = b} + {a <> b}) (parents : node -> list node)
         (I : @infos K V) (self : node) (k : K) (U : list node) (fuel : nat),
    finite_graph parents self U -> length U < fuel ->
    (exists n, nearest_owner K_eq parents I self k n /\ find_info_owner K_eq parents fuel I self k = ROk n) \/
    (nobody_has K_eq parents I self k /\ find_info_owner K_eq parents fuel I self k = RKeyError).
Proof.
  intros K V K_eq parents I self k U fuel HU Hf.
  destruct (owner_cases K_eq parents I self k U HU) as [(n & H1 & H2)|[H1 H2]]; [left|right]; eauto.
Qed.
Print Assumptions find_info_nearest_owner.

Theorem find_info_value :
  forall (K V : Type) (K_eq : forall a b : K, {a = b} + {a <> b}) (parents : node -> list node)
         (I : @infos K V) (self : node) (k : K) (default : option V) (U : list node) (fuel : nat),
    finite_graph parents self U -> length U < fuel ->
    (forall n, nearest_owner K_eq parents I self k n ->
       exists v, dget K_eq (I n) k = Some v /\ find_info K_eq parents fuel I self k default = ROk v) /\
    (nobody_has K_eq parents I self k ->
       find_info K_eq parents fuel I self k default = match default with Some d => ROk d | None => RKeyError end).
Proof.
  intros K V K_eq parents I self k default U fuel HU Hf.
  assert (Huniq : forall n1 n2, nearest_owner K_eq parents I self k n1 -> nearest_owner K_eq parents I self k n2 -> n1 = n2).
  { intros n1 n2 (d1 & b1 & a1 & E1 & H1 & B1 & L1) (d2 & b2 & a2 & E2 & H2 & B2 & L2).
    assert (W1 : walk parents self n1 d1) by (apply level_walk; rewrite E1; apply in_elt).
    assert (W2 : walk parents self n2 d2) by (apply level_walk; rewrite E2; apply in_elt).
    destruct (lt_eq_lt_dec d1 d2) as [[Hd|Hd]|Hd].
    - elim H1. now apply (L2 d1).
    - subst d2. rewrite E1 in E2. clear - E2 H1 H2 B1 B2. revert b2 B2 E2. induction b1 as [|x b1 IH]; intros [|y b2] B2 E2; cbn in E2.
      + now injection E2.
      + injection E2 as <- _. elim H1. apply B2. now left.
      + injection E2 as -> _. elim H2. apply B1. now left.
      + injection E2 as <- E2. apply (IH ltac:(intros z Hz; apply B1; now right) b2); [intros z Hz; apply B2; now right|exact E2].
    - elim H2. now apply (L1 d2). }
  destruct (find_info_nearest_owner K V K_eq parents I self k U fuel HU Hf) as [(n & H1 & H2)|[H1 H2]]; unfold find_info; rewrite H2.
  - split.
    + intros n' Hn'. rewrite (Huniq n' n Hn' H1). destruct H1 as (d & b & a & _ & Hn & _).
      unfold get_info. destruct (dget K_eq (I n) k) as [v|]; [|congruence]. exists v. auto.
    + intros Hno. exfalso. destruct H1 as (d & b & a & E & Hn & _). apply Hn, (Hno d).
      apply level_walk. rewrite E. apply in_elt.
  - split; [|reflexivity]. intros n (d & b & a & E & Hn & _). elim Hn. apply (H1 d).
    apply level_walk. rewrite E. apply in_elt.
Qed.
Print Assumptions find_info_value.

(** a cyclic graph with a shared ancestor: 0 -> [1;2], 1 -> [3], 2 -> [3;0], 3 -> [1] *)
Definition ex_parents (n : node) : list node :=
  match n with 0 => [1; 2] | 1 => [3] | 2 => [3; 0] | 3 => [1] | _ => [] end.
Definition ex_infos : @infos nat nat :=
  fun n => match n with 2 => [(7, 20)] | 3 => [(7, 30); (8, 31)] | _ => [] end.
Example find_info_nonvacuous :
  finite_graph ex_parents 0 [0; 1; 2; 3] /\
  find_info Nat.eq_dec ex_parents 5 ex_infos 0 7 None = ROk 20 /\
  find_info Nat.eq_dec ex_parents 5 ex_infos 0 8 None = ROk 31 /\
  find_info Nat.eq_dec ex_parents 5 ex_infos 0 9 (Some 1) = ROk 1 /\
  find_info Nat.eq_dec ex_parents 5 ex_infos 0 9 None = RKeyError /\
  nearest_owner Nat.eq_dec ex_parents ex_infos 0 7 2.
Proof.
  split; [|repeat split].
  - split; [now left|]. intros x y Hx. cbn in Hx.
    destruct Hx as [<-|[<-|[<-|[<-|[]]]]]; cbn; intuition.
  - exists 1, [1], []. split; [reflexivity|]. split; [discriminate|]. split.
    + intros x [<-|[]]. reflexivity.
    + intros d x Hd Hw. assert (d = 0) as -> by lia. inversion Hw. reflexivity.
Qed.

(** update_info changes the owner's entry only, or the node's own when nobody
    has the key *)
Theorem update_info_touches_owner_only :
  forall (K V : Type) (K_eq : forall a b : K, {a = b} + {a <> b}) (parents : node -> list node)
         (I : @infos K V) (self : node) (k : K) (v : V) (fallback : bool) (U : list node) (fuel : nat),
    finite_graph parents self U -> length U < fuel ->
    let changed n I' := dget K_eq (I' n) k = Some v /\
                        forall m k', (m, k') <> (n, k) -> dget K_eq (I' m) k' = dget K_eq (I m) k' in
    (forall n, nearest_owner K_eq parents I self k n ->
       exists I', update_info K_eq parents fuel I self k v fallback = ROk I' /\ changed n I') /\
    (nobody_has K_eq parents I self k ->
       if fallback then exists I', update_info K_eq parents fuel I self k v fallback = ROk I' /\ changed self I'
       else update_info K_eq parents fuel I self k v fallback = RKeyError).
Proof.
  intros K V K_eq parents I self k v fallback U fuel HU Hf changed.
  assert (Hset : forall n, changed n (set_info K_eq I n k v)).
  { intros n. split.
    - unfold set_info. destruct (n_eq n n); [|congruence]. rewrite dget_dset. now destruct (K_eq k k).
    - intros m k' Hne. unfold set_info. destruct (n_eq m n) as [->|]; [|reflexivity].
      rewrite dget_dset. destruct (K_eq k' k) as [->|]; [congruence|reflexivity]. }
  (* reuse the value theorem for the identity of the owner *)
  destruct (find_info_nearest_owner K V K_eq parents I self k U fuel HU Hf) as [(n & H1 & H2)|[H1 H2]]; unfold update_info; rewrite H2.
  - split.
    + intros n' Hn'. exists (set_info K_eq I n k v). split; [reflexivity|].
      replace n' with n; [apply Hset|].
      destruct H1 as (d1 & b1 & a1 & E1 & P1 & B1 & L1). destruct Hn' as (d2 & b2 & a2 & E2 & P2 & B2 & L2).
      assert (W1 : walk parents self n d1) by (apply level_walk; rewrite E1; apply in_elt).
      assert (W2 : walk parents self n' d2) by (apply level_walk; rewrite E2; apply in_elt).
      destruct (lt_eq_lt_dec d1 d2) as [[Hd|Hd]|Hd].
      * elim P1. now apply (L2 d1).
      * subst d2. rewrite E1 in E2. clear - E2 P1 P2 B1 B2. revert b2 B2 E2. induction b1 as [|x b1 IH]; intros [|y b2] B2 E2; cbn in E2.
        -- now injection E2.
        -- injection E2 as <- _. elim P1. apply B2. now left.
        -- injection E2 as -> _. elim P2. apply B1. now left.
        -- injection E2 as <- E2. apply (IH ltac:(intros z Hz; apply B1; now right) b2); [intros z Hz; apply B2; now right|exact E2].
      * elim P2. now apply (L1 d2).
    + intros Hno. exfalso. destruct H1 as (d & b & a & E & Hn & _). apply Hn, (Hno d).
      apply level_walk. rewrite E. apply in_elt.
  - split.
    + intros n (d & b & a & E & Hn & _). elim Hn. apply (H1 d). apply level_walk. rewrite E. apply in_elt.
    + intros _. destruct fallback; [|reflexivity]. exists (set_info K_eq I self k v). split; [reflexivity|apply Hset].
Qed.
Print Assumptions update_info_touches_owner_only.

(** C41: a time assigned to a node can be read back from it.  True for numbers;
    dates and time differences are silently dropped. *)
Theorem node_time_number_reads_back :
  forall (K V : Type) (K_eq : forall a b : K, {a = b} + {a <> b}) (time_key : K) (mk : Z -> V)
         (parents : node -> list node) (I : @infos K V) (self : node) (x : Z) (default : option V) (fuel : nat),
    find_info K_eq parents fuel (set_time K_eq time_key mk I self (TNum x)) self time_key default = ROk (mk x).
Proof.
  intros. unfold find_info, find_info_owner, parent_bfs, has_info, get_info, dmem, set_time, set_info.
  destruct (n_eq self self); [|congruence]. rewrite dget_dset. destruct (K_eq time_key time_key); [|congruence]. cbn.
  destruct (n_eq self self); [|congruence]. rewrite dget_dset. now destruct (K_eq time_key time_key).
Qed.
Print Assumptions node_time_number_reads_back.

Theorem node_time_timedelta_refuted :
  forall (K V : Type) (K_eq : forall a b : K, {a = b} + {a <> b}) (time_key : K) (mk : Z -> V)
         (parents : node -> list node) (I : @infos K V) (self : node) (t : Z) (default : option V) (fuel : nat),
    find_info K_eq parents fuel (set_time K_eq time_key mk I self (TTimedelta t)) self time_key default
      = find_info K_eq parents fuel I self time_key default /\
    find_info K_eq parents fuel (set_time K_eq time_key mk I self (TDatetime t)) self time_key default
      = find_info K_eq parents fuel I self time_key default.
Proof. intros. split; reflexivity. Qed.
Print Assumptions node_time_timedelta_refuted.

Example node_time_nonvacuous :
  find_info Nat.eq_dec ex_parents 9 (set_time Nat.eq_dec 0 Z.to_nat ex_infos 1 (TNum 5)) 0 0 None = ROk 5 /\
  find_info Nat.eq_dec ex_parents 9 (set_time Nat.eq_dec 0 Z.to_nat ex_infos 1 (TTimedelta 5)) 0 0 None = RKeyError.
Proof. split; reflexivity. Qed.

(** C42: find_attr never returns an inherited attribute: whenever the node or any
    ancestor has it, a NameError is raised. *)
Theorem find_attr_refuted :
  forall (A : Type) (parents : node -> list node) (attr : node -> option A) (self : node)
         (default : option A) (U : list node) (fuel : nat),
    finite_graph parents self U -> length U < fuel ->
    ((exists x d, walk parents self x d /\ attr x <> None) -> find_attr parents fuel attr self default = RNameError) /\
    ((forall x d, walk parents self x d -> attr x = None) ->
       find_attr parents fuel attr self default = match default with Some v => ROk v | None => RAttributeError end).
Proof.
  intros A parents attr self default U fuel HU Hf.
  (* the search of find_attr is the search for a key with the same owners *)
  set (I := fun n => match attr n with Some v => [(tt, v)] | None => [] end : dict unit A).
  assert (ueq : forall a b : unit, {a = b} + {a <> b}) by decide equality.
  assert (Hh : forall n, has_info ueq I n tt = match attr n with Some _ => true | None => false end).
  { intros n. unfold has_info, dmem, I. destruct (attr n); cbn; [|reflexivity]. now destruct (ueq tt tt). }
  assert (Hd : forall n, dget ueq (I n) tt = attr n).
  { intros n. unfold I. destruct (attr n); cbn; [|reflexivity]. now destruct (ueq tt tt). }
  assert (Hcong : forall c1 c2 : node -> bool, (forall n, c1 n = c2 n) -> forall s,
            parent_bfs parents (fun (_ : unit) o => (tt, c1 o)) fuel s self = parent_bfs parents (fun (_ : unit) o => (tt, c2 o)) fuel s self).
  { intros c1 c2 Hc s. unfold parent_bfs. rewrite Hc. destruct (c2 self); [reflexivity|].
    assert (Hscan : forall lv s V nx, scan_level parents (fun (_ : unit) o => (tt, c1 o)) s V lv nx = scan_level parents (fun (_ : unit) o => (tt, c2 o)) s V lv nx).
    { induction lv as [|o lv IH]; intros; cbn; [reflexivity|]. destruct (in_dec n_eq o V); [apply IH|].
      rewrite Hc. destruct (c2 o); [reflexivity|apply IH]. }
    assert (Hloop : forall f s' V nx, bfs_loop parents (fun (_ : unit) o => (tt, c1 o)) f s' V nx = bfs_loop parents (fun (_ : unit) o => (tt, c2 o)) f s' V nx);
      [|apply Hloop].
    induction f as [|f IH]; intros s' V nx; [reflexivity|].
    cbn [bfs_loop]. destruct nx as [|x nx]; [reflexivity|]. rewrite Hscan.
    destruct (scan_level _ _ _ _ _ _) as [s2 [n|[V' nx']]]; [reflexivity|apply IH]. }
  unfold find_attr. rewrite <- (Hcong _ _ Hh).
  pose proof (find_info_nearest_owner unit A ueq parents I self tt U fuel HU Hf) as Hown.
  unfold find_info_owner in Hown.
  destruct (parent_bfs parents (fun (_ : unit) o => (tt, has_info ueq I o tt)) fuel tt self) as [u b]. cbn [snd] in Hown.
  split.
  - intros (x & d & Hw & Hx). destruct Hown as [(n & _ & E)|[Hno _]].
    + destruct b; [reflexivity|discriminate|discriminate].
    + specialize (Hno d x Hw). rewrite Hd in Hno. congruence.
  - intros Hall. destruct Hown as [(n & (d & b' & a' & E' & Hn & _) & E)|[_ E]].
    + elim Hn. rewrite Hd. apply (Hall n d). apply level_walk. rewrite E'. apply in_elt.
    + destruct b; [discriminate|reflexivity|discriminate].
Qed.
Print Assumptions find_attr_refuted.
Example find_attr_nonvacuous :
  find_attr ex_parents 9 (fun n => if Nat.eqb n 3 then Some 5 else None) 0 (Some 1) = RNameError /\
  find_attr ex_parents 9 (fun n => @None nat) 0 (Some 1) = ROk 1.
Proof. split; reflexivity. Qed.

(** parent lists: attaching is idempotent, detaching after attaching restores *)
Theorem prepare_child_idempotent :
  forall self ps, prepare_child self (prepare_child self ps) = prepare_child self ps /\
    In self (prepare_child self ps) /\ (NoDup ps -> NoDup (prepare_child self ps)) /\
    (forall p, In p ps -> In p (prepare_child self ps)).
Proof.
  intros self ps. unfold prepare_child. destruct (in_dec n_eq self ps) as [H|H].
  - destruct (in_dec n_eq self ps); [|contradiction]. auto.
  - assert (Hin : In self (ps ++ [self])) by (apply in_app_iff; right; now left).
    destruct (in_dec n_eq self (ps ++ [self])); [|contradiction]. split; [reflexivity|]. split; [exact Hin|]. split.
    + intros Hnd. apply NoDup_rev in Hnd. rewrite <- (rev_involutive (ps ++ [self])). apply NoDup_rev.
      rewrite rev_app_distr. cbn. constructor; [|exact Hnd]. now rewrite <- in_rev.
    + intros p Hp. apply in_app_iff. now left.
Qed.
Print Assumptions prepare_child_idempotent.
Theorem tear_down_undoes_prepare :
  forall self ps, ~ In self ps -> tear_down_child self (prepare_child self ps) = ps /\ tear_down_child self ps = ps.
Proof.
  intros self ps H. unfold prepare_child. destruct (in_dec n_eq self ps); [contradiction|]. clear n.
  induction ps as [|p ps IH]; cbn.
  - destruct (n_eq self self); [auto|congruence].
  - destruct (n_eq p self) as [->|]; [elim H; now left|].
    destruct IH as [E1 E2]; [intros Hin; apply H; now right|]. now rewrite E1, E2.
Qed.
Print Assumptions tear_down_undoes_prepare.
Example prepare_child_nonvacuous : prepare_child 3 [1; 2] = [1; 2; 3] /\ tear_down_child 2 [1; 2; 3] = [1; 3].
Proof. split; reflexivity. Qed.

(** get_all_info agrees with find_info on every key *)
Section AllInfo.
Context {K V : Type} (K_eq : forall a b : K, {a = b} + {a <> b}).
Variable parents : node -> list node.
Variable I : @infos K V.
Variable k : K.
Notation hask := (fun (_ : unit) o => (tt, has_info K_eq I o k)).

Lemma collect_get all o : dget K_eq (fst (collect K_eq I all o)) k =
  match dget K_eq all k with Some v => Some v | None => dget K_eq (I o) k end.
Proof.
  unfold collect. cbn [fst]. revert all. induction (I o) as [|[k' v'] d IH]; intros all; cbn [fold_left].
  - now destruct (dget K_eq all k).
  - rewrite IH. cbn [dget]. unfold dmem. destruct (dget K_eq all k') eqn:E'.
    + destruct (dget K_eq all k) eqn:E; [reflexivity|]. destruct (K_eq k k') as [->|]; [congruence|reflexivity].
    + rewrite dget_dset. destruct (K_eq k k') as [->|]; [now rewrite E'|reflexivity].
Qed.

Lemma scan_keeps v lv : forall s W nx, dget K_eq s k = Some v ->
  exists s' r, scan_level parents (collect K_eq I) s W lv nx = (s', inr r) /\ dget K_eq s' k = Some v.
Proof.
  induction lv as [|o lv IH]; intros s W nx Hs; cbn [scan_level]; [eauto|].
  destruct (in_dec n_eq o W); [now apply IH|].
  pose proof (collect_get s o) as Hc. destruct (collect K_eq I s o) as [s1 b] eqn:E.
  assert (b = false) as -> by (unfold collect in E; congruence). cbn [fst] in Hc. rewrite Hs in Hc. now apply IH.
Qed.
Lemma scan_lock lv : forall s W nx, dget K_eq s k = None ->
  match scan_level parents hask tt W lv nx with
  | (_, inl n) => exists s' r, scan_level parents (collect K_eq I) s W lv nx = (s', inr r) /\
                     dget K_eq s' k = dget K_eq (I n) k /\ dget K_eq (I n) k <> None
  | (_, inr r) => exists s', scan_level parents (collect K_eq I) s W lv nx = (s', inr r) /\ dget K_eq s' k = None
  end.
Proof.
  induction lv as [|o lv IH]; intros s W nx Hs; cbn [scan_level]; [eauto|].
  destruct (in_dec n_eq o W); [now apply IH|].
  pose proof (collect_get s o) as Hc. destruct (collect K_eq I s o) as [s1 b] eqn:E.
  assert (b = false) as -> by (unfold collect in E; congruence). cbn [fst] in Hc. rewrite Hs in Hc.
  unfold has_info at 1, dmem. destruct (dget K_eq (I o) k) as [v|] eqn:Eo.
  - destruct (scan_keeps v lv s1 (o :: W) (nx ++ parents o) Hc) as (s' & r & E1 & E2).
    exists s', r. rewrite E1, E2, Eo. repeat split; auto. discriminate.
  - apply IH. exact Hc.
Qed.
Lemma loop_keeps v fuel : forall s W nx, dget K_eq s k = Some v ->
  dget K_eq (fst (bfs_loop parents (collect K_eq I) fuel s W nx)) k = Some v.
Proof.
  induction fuel as [|f IH]; intros s W nx Hs; cbn [bfs_loop]; destruct nx as [|x nx]; try exact Hs.
  destruct (scan_keeps v (x :: nx) s W [] Hs) as (s' & [W' nx'] & -> & Hs'). now apply IH.
Qed.
Lemma loop_lock fuel : forall s W nx, dget K_eq s k = None ->
  dget K_eq (fst (bfs_loop parents (collect K_eq I) fuel s W nx)) k =
  match snd (bfs_loop parents hask fuel tt W nx) with BFound n => dget K_eq (I n) k | _ => None end.
Proof.
  induction fuel as [|f IH]; intros s W nx Hs; cbn [bfs_loop]; destruct nx as [|x nx]; try exact Hs.
  pose proof (scan_lock (x :: nx) s W [] Hs) as HL.
  destruct (scan_level parents hask tt W (x :: nx) []) as [u [n|[W' nx']]].
  - destruct HL as (s' & [W' nx'] & -> & H1 & H2). cbn [snd].
    destruct (dget K_eq (I n) k) as [v|]; [|congruence]. now apply loop_keeps.
  - destruct HL as (s' & -> & H1). destruct u. now apply IH.
Qed.
End AllInfo.

Theorem get_all_info_is_find_info :
  forall (K V : Type) (K_eq : forall a b : K, {a = b} + {a <> b}) (parents : node -> list node)
         (I : @infos K V) (self : node) (k : K) (U : list node) (fuel : nat),
    finite_graph parents self U -> length U < fuel ->
    find_info K_eq parents fuel I self k None =
      match dget K_eq (get_all_info K_eq parents fuel I self) k with Some v => ROk v | None => RKeyError end.
Proof.
  intros K V K_eq parents I self k U fuel HU Hf.
  assert (E : dget K_eq (get_all_info K_eq parents fuel I self) k =
              match snd (parent_bfs parents (fun (_ : unit) o => (tt, has_info K_eq I o k)) fuel tt self) with
              | BFound n => dget K_eq (I n) k | _ => None end).
  { unfold get_all_info, parent_bfs.
    pose proof (collect_get K_eq I k [] self) as Hc. destruct (collect K_eq I [] self) as [s1 b] eqn:E.
    assert (b = false) as -> by (unfold collect in E; congruence). cbn [fst dget] in Hc.
    unfold has_info at 1, dmem. destruct (dget K_eq (I self) k) as [v|] eqn:Eo.
    - cbn [snd]. rewrite Eo. now apply loop_keeps.
    - now apply loop_lock. }
  rewrite E. unfold find_info.
  destruct (find_info_nearest_owner K V K_eq parents I self k U fuel HU Hf) as [(n & H1 & H2)|[H1 H2]];
    rewrite H2; unfold find_info_owner in H2;
    destruct (snd (parent_bfs parents (fun (_ : unit) o => (tt, has_info K_eq I o k)) fuel tt self)); try discriminate.
  - injection H2 as ->. unfold get_info. now destruct (dget K_eq (I n) k).
  - reflexivity.
Qed.
Print Assumptions get_all_info_is_find_info.
Example get_all_info_nonvacuous :
  get_all_info Nat.eq_dec ex_parents 9 ex_infos 0 = [(7, 20); (8, 31)].
Proof. reflexivity. Qed.
