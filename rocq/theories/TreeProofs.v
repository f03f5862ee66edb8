From Verif Require Export TreeModel.

(** * Specification: levels of ancestors *)
Fixpoint level (parents : node -> list node) (self : node) (d : nat) : list node :=
  match d with
  | O => [self]
  | S d' => flat_map parents (level parents self d')
  end.

Section P.
Variable parents : node -> list node.
Variable c : node -> bool.

(** expansion of a list by j steps *)
Fixpoint expand (j : nat) (l : list node) : list node :=
  match j with O => l | S j' => expand j' (flat_map parents l) end.

Lemma expand_level self d j : expand j (level parents self d) = level parents self (d + j).
Proof.
  revert d. induction j as [|j IH]; intros d; cbn [expand].
  - now rewrite Nat.add_0_r.
  - change (flat_map parents (level parents self d)) with (level parents self (S d)).
    rewrite IH. f_equal. lia.
Qed.
Lemma expand_app j l1 l2 : expand j (l1 ++ l2) = expand j l1 ++ expand j l2.
Proof. revert l1 l2. induction j as [|j IH]; intros; cbn; [reflexivity|]. now rewrite flat_map_app, IH. Qed.
Lemma expand_nil j : expand j [] = [].
Proof. induction j; cbn; auto. Qed.

Lemma find_app {A} (f : A -> bool) l1 l2 :
  find f (l1 ++ l2) = match find f l1 with Some x => Some x | None => find f l2 end.
Proof. induction l1 as [|x l1 IH]; cbn; [reflexivity|]. destruct (f x); auto. Qed.

Definition F (j : nat) (x : node) : option node := find c (expand j [x]).
Lemma F_S j x : F (S j) x = find c (expand j (parents x)).
Proof. unfold F. cbn [expand flat_map]. now rewrite app_nil_r. Qed.
Lemma find_expand_cons j x l :
  find c (expand j (x :: l)) = match F j x with Some y => Some y | None => find c (expand j l) end.
Proof. change (x :: l) with ([x] ++ l). now rewrite expand_app, find_app. Qed.
Lemma F_none_in j l x : find c (expand j l) = None -> In x l -> F j x = None.
Proof.
  induction l as [|y l IH]; [intros _ []|]. rewrite find_expand_cons.
  destruct (F j y) eqn:E; [discriminate|]. intros H [<-|Hin]; auto.
Qed.

Notation scan := (scan_level parents (fun (_ : unit) o => (tt, c o)) tt).

(** a level without a hit: what is visited and what comes next *)
Lemma scan_nohit lv : forall V nx, (forall x, In x lv -> c x = false \/ In x V) ->
  exists V' nx', scan V lv nx = (tt, inr (V', nx ++ nx')) /\
    (forall x, In x V' <-> In x V \/ In x lv) /\
    (forall j, (forall v, In v V -> F (S j) v = None) -> find c (expand j nx') = find c (expand (S j) lv)) /\
    (forall y, In y nx' -> exists x, In x lv /\ In y (parents x)) /\
    (NoDup V -> NoDup V').
Proof.
  induction lv as [|o lv IH]; intros V nx Hc; cbn [scan_level].
  - exists V, []. rewrite app_nil_r. split; [reflexivity|]. split; [cbn; tauto|]. split; [|split; [intros y []|auto]].
    intros j _. now rewrite !expand_nil.
  - destruct (in_dec n_eq o V) as [Hin|Hni].
    + destruct (IH V nx) as (V' & nx' & E & H1 & H2 & H3 & H4); [intros x Hx; apply Hc; now right|].
      exists V', nx'. split; [exact E|]. split; [|split; [|split; [|exact H4]]].
      * intros x. rewrite H1. cbn. split; [tauto|]. intros [H|[<-|H]]; auto.
      * intros j Hj. rewrite H2 by exact Hj. now rewrite (find_expand_cons (S j) o lv), (Hj o Hin).
      * intros y Hy. destruct (H3 y Hy) as (x & Hx & Hxy). exists x. split; [now right|exact Hxy].
    + destruct (Hc o) as [Ho|Ho]; [now left| |contradiction]. rewrite Ho.
      destruct (IH (o :: V) (nx ++ parents o)) as (V' & nx' & E & H1 & H2 & H3 & H4).
      { intros x Hx. destruct (Hc x) as [H|H]; [now right|now left|right; now right]. }
      exists V', (parents o ++ nx'). rewrite app_assoc. split; [exact E|]. split; [|split; [|split]].
      * intros x. rewrite H1. cbn. tauto.
      * intros j Hj. rewrite expand_app, find_app, (find_expand_cons (S j) o lv), F_S.
        destruct (find c (expand j (parents o))) eqn:Ef; [reflexivity|].
        apply H2. intros v [<-|Hv]; [now rewrite F_S|now apply Hj].
      * intros y Hy. apply in_app_iff in Hy. destruct Hy as [Hy|Hy]; [exists o; split; [now left|exact Hy]|].
        destruct (H3 y Hy) as (x & Hx & Hxy). exists x. split; [now right|exact Hxy].
      * intros Hnd. apply H4. constructor; assumption.
Qed.

Lemma scan_hit lv : forall V nx n, (forall v, In v V -> c v = false) -> find c lv = Some n ->
  scan V lv nx = (tt, inl n).
Proof.
  induction lv as [|o lv IH]; intros V nx n HV Hf; cbn [find scan_level] in *; [discriminate|].
  destruct (in_dec n_eq o V) as [Hin|Hni].
  - rewrite (HV o Hin) in Hf. now apply IH.
  - destruct (c o) eqn:Ho; [congruence|]. apply IH; [|exact Hf]. intros v [<-|Hv]; auto.
Qed.

Lemma find_none_all lv x : find c lv = None -> In x lv -> c x = false.
Proof. intros H Hin. exact (find_none _ _ H x Hin). Qed.

(** the loop from level d on, when the first hit is at level d + k *)
Lemma loop_hit k : forall fuel V nx n,
  (forall j, j < k -> find c (expand j nx) = None) -> find c (expand k nx) = Some n ->
  (forall v j, In v V -> j <= k -> F j v = None) -> k < fuel ->
  bfs_loop parents (fun (_ : unit) o => (tt, c o)) fuel tt V nx = (tt, BFound n).
Proof.
  induction k as [|k IH]; intros fuel V nx n Hlt Hk HV Hf.
  - cbn [expand] in Hk. destruct fuel as [|fuel]; [lia|]. destruct nx as [|x nx]; [discriminate|]. cbn [bfs_loop].
    rewrite (scan_hit (x :: nx) V [] n); [reflexivity| |exact Hk].
    intros v Hv. specialize (HV v 0 Hv ltac:(lia)). unfold F in HV. cbn in HV. destruct (c v); [discriminate|reflexivity].
  - destruct fuel as [|fuel]; [lia|]. destruct nx as [|x nx]; [rewrite expand_nil in Hk; discriminate|].
    cbn [bfs_loop].
    assert (H0 := Hlt 0 ltac:(lia)). cbn [expand] in H0.
    destruct (scan_nohit (x :: nx) V []) as (V' & nx' & E & H1 & H2 & H3 & _).
    { intros y Hy. left. now apply (find_none_all (x :: nx)). }
    rewrite E. cbn [app]. apply IH.
    + intros j Hj. rewrite H2; [apply Hlt; lia|]. intros v Hv. apply HV; [exact Hv|lia].
    + rewrite H2; [exact Hk|]. intros v Hv. apply HV; [exact Hv|lia].
    + intros v j Hv Hj. apply H1 in Hv. destruct Hv as [Hv|Hv]; [apply HV; [exact Hv|lia]|].
      apply (F_none_in j (x :: nx)); [apply Hlt; lia|exact Hv].
    + lia.
Qed.

(** without any hit the loop ends after at most one level per node *)
Lemma loop_nohit U : (forall x, In x U -> c x = false) -> (forall x y, In x U -> In y (parents x) -> In y U) ->
  forall fuel V nx, incl nx U -> incl V U -> NoDup V -> length U < fuel + length V ->
  bfs_loop parents (fun (_ : unit) o => (tt, c o)) fuel tt V nx = (tt, BNone) \/
  (* all of the level was already visited *) length U = length V /\ fuel = 0.
Proof.
  intros Hc Hcl. induction fuel as [|fuel IH]; intros V nx Hnx HV Hnd Hlen.
  - pose proof (NoDup_incl_length Hnd HV). lia.
  - left. destruct nx as [|x nx]; [reflexivity|]. cbn [bfs_loop].
    destruct (scan_nohit (x :: nx) V []) as (V' & nx' & E & H1 & _ & H3 & H4).
    { intros y Hy. left. apply Hc. now apply Hnx. }
    rewrite E. cbn [app].
    assert (HV' : incl V' U). { intros v Hv. apply H1 in Hv. destruct Hv; auto. }
    assert (Hnx' : incl nx' U).
    { intros y Hy. destruct (H3 y Hy) as (z & Hz & Hzy). apply (Hcl z y); auto. }
    assert (Hnd' := H4 Hnd).
    (* either something new was visited or the next level is empty *)
    destruct (le_lt_dec (length V') (length V)) as [Hle|Hgt].
    + assert (nx' = []) as ->.
      { assert (Hsub : incl V' V) by (apply NoDup_length_incl; [exact Hnd|exact Hle|intros v Hv; apply H1; now left]).
        clear - E Hsub H1.
        assert (Hall : forall y, In y (x :: nx) -> In y V) by (intros y Hy; apply Hsub, H1; now right).
        clear Hsub H1. revert Hall E. generalize (x :: nx) as lv.
        induction lv as [|o lv IHl]; cbn [scan_level]; intros Hall E; [injection E; auto|].
        destruct (in_dec n_eq o V) as [|Hn]; [apply IHl; [intros; apply Hall; now right|exact E]|].
        elim Hn. apply Hall. now left. }
      destruct fuel; reflexivity.
    + destruct (IH V' nx' Hnx' HV' Hnd') as [H|[H Hf]]; [lia|exact H|].
      subst fuel.
      (* fuel 0 left but everything visited: the bound excludes it *)
      pose proof (NoDup_incl_length Hnd' HV'). lia.
Qed.
End P.

Lemma loop_nohit' parents c U self : (forall x, In x U -> c x = false) ->
  (forall x y, In x U -> In y (parents x) -> In y U) -> In self U -> c self = false ->
  forall fuel, length U < fuel -> snd (parent_bfs parents (fun (_ : unit) o => (tt, c o)) fuel tt self) = BNone.
Proof.
  intros Hc Hcl Hs Hcs fuel Hf. unfold parent_bfs. rewrite Hcs.
  destruct (loop_nohit parents c U Hc Hcl fuel [] (parents self)) as [E|[E1 E2]].
  - intros y Hy. now apply (Hcl self).
  - intros y [].
  - constructor.
  - cbn. lia.
  - now rewrite E.
  - subst. lia.
Qed.

(** nodes at distance d *)
Lemma level_closed parents self U : In self U -> (forall x y, In x U -> In y (parents x) -> In y U) ->
  forall d x, In x (level parents self d) -> In x U.
Proof.
  intros Hs Hcl. induction d as [|d IH]; cbn; intros x Hx.
  - destruct Hx as [<-|[]]. exact Hs.
  - apply in_flat_map in Hx. destruct Hx as (y & Hy & Hxy). eauto.
Qed.

(** the visiting order: all reachable nodes, nearest first *)
Inductive walk (parents : node -> list node) : node -> node -> nat -> Prop :=
| walk_here x : walk parents x x 0
| walk_up x y z d : walk parents x y d -> In z (parents y) -> walk parents x z (S d).

Lemma level_walk parents self d x : In x (level parents self d) <-> walk parents self x d.
Proof.
  revert x. induction d as [|d IH]; intros x; cbn.
  - split; [intros [<-|[]]; constructor|]. intros H. inversion H. now left.
  - rewrite in_flat_map. split.
    + intros (y & Hy & Hx). apply IH in Hy. econstructor; eauto.
    + intros H. inversion H; subst. exists y. split; [now apply IH|assumption].
Qed.

(** a hit at a reachable node implies one within length U levels *)
Lemma bfs_hit parents c fuel self m n :
  (forall d, d < m -> find c (level parents self d) = None) -> find c (level parents self m) = Some n ->
  m <= fuel ->
  snd (parent_bfs parents (fun (_ : unit) o => (tt, c o)) fuel tt self) = BFound n.
Proof.
  intros Hlt Hm Hf. unfold parent_bfs. destruct m as [|m].
  - cbn in Hm. destruct (c self); [|discriminate]. now injection Hm as <-.
  - assert (H0 := Hlt 0 ltac:(lia)). cbn in H0. destruct (c self) eqn:E; [discriminate|].
    rewrite (loop_hit parents c m fuel [] (parents self) n); [reflexivity| | | |lia].
    + intros j Hj. replace (parents self) with (level parents self 1) by (cbn; apply app_nil_r).
      rewrite expand_level. apply Hlt. lia.
    + replace (parents self) with (level parents self 1) by (cbn; apply app_nil_r).
      rewrite expand_level. exact Hm.
    + intros v j [].
Qed.

(** the first level with a hit is reached within length U levels: walks without
    repetition are no longer than U *)
Lemma min_level parents (c : node -> bool) self U :
  In self U -> (forall x y, In x U -> In y (parents x) -> In y U) ->
  (exists d n, find c (level parents self d) = Some n) ->
  exists m n, (forall d, d < m -> find c (level parents self d) = None) /\
              find c (level parents self m) = Some n /\ m <= length U.
Proof.
  intros Hs Hcl (d & n & Hd).
  (* least d *)
  assert (Hmin : exists m n, (forall d', d' < m -> find c (level parents self d') = None) /\ find c (level parents self m) = Some n).
  { revert n Hd. induction d as [d IH] using lt_wf_ind. intros n Hd.
    destruct (find (fun d' => match find c (level parents self d') with Some _ => true | None => false end) (seq 0 d)) as [d'|] eqn:E.
    - apply find_some in E. destruct E as [Hin E]. apply in_seq in Hin.
      destruct (find c (level parents self d')) as [n'|] eqn:E'; [|discriminate]. apply (IH d' ltac:(lia) n' E').
    - exists d, n. split; [|exact Hd]. intros d' Hd'. pose proof (find_none _ _ E d' ltac:(apply in_seq; lia)) as H.
      cbn in H. destruct (find c (level parents self d')); [discriminate|reflexivity]. }
  destruct Hmin as (m & n' & Hlt & Hm). exists m, n'. split; [exact Hlt|]. split; [exact Hm|].
  (* run the search with a lot of fuel, and with fuel S (length U): the loop
     cannot still be going *)
  destruct (le_lt_dec m (length U)) as [|Hgt]; [assumption|exfalso].
  (* pick a walk to the hit; its nodes at distances 0..m are pairwise different *)
  assert (HW : exists w, length w = S m /\ NoDup w /\ incl w U).
  { destruct (find_some _ _ Hm) as [Hn Hcn].
    assert (Hpath : forall k x, walk parents self x k -> forall j, k + j = m -> In n' (expand parents j [x]) ->
              exists w, length w = S k /\ incl w U /\ hd_error w = Some x /\
                 (forall i y, nth_error w i = Some y -> walk parents self y (k - i) /\ In n' (expand parents (j + i) [y]))).
    { intros k x Hw. induction Hw as [x|x y z k Hw IH Hz]; intros j Hj Hx.
      - exists [x]. split; [reflexivity|]. split; [intros q [<-|[]]; exact Hs|]. split; [reflexivity|].
        intros [|[|i]] q; cbn; try discriminate. intros [= <-]. split; [constructor|]. now rewrite Nat.add_0_r.
      - destruct (IH Hs Hd Hlt Hm Hn (S j)) as (w & W1 & W2 & W3 & W4); [lia| |].
        { cbn [expand flat_map]. rewrite app_nil_r. apply in_split in Hz. destruct Hz as (l1 & l2 & ->).
          rewrite expand_app. apply in_app_iff. right. change (z :: l2) with ([z] ++ l2). rewrite expand_app.
          apply in_app_iff. now left. }
        exists (z :: w). split; [cbn; lia|]. split.
        { intros q [<-|Hq]; [|now apply W2]. apply (Hcl y z); [|exact Hz].
          destruct w as [|y' w]; [discriminate|]. injection W3 as ->. apply W2. now left. }
        split; [reflexivity|]. intros [|i] q; cbn.
        { intros [= <-]. split; [econstructor; eauto|]. now rewrite Nat.add_0_r. }
        { intros Hq. destruct (W4 i q Hq) as [Q1 Q2]. split; [replace (S k - S i) with (k - i) by lia; exact Q1|].
          now rewrite Nat.add_succ_r. } }
    apply level_walk in Hn. destruct (Hpath m n' Hn 0) as (w & W1 & W2 & _ & W4); [lia|now left|].
    exists w. split; [exact W1|]. split; [|exact W2].
    (* a repeated node would give a shorter walk to the hit *)
    rewrite NoDup_nth_error. intros a b Ha E.
    destruct (nth_error w a) as [y|] eqn:Ea; [|apply nth_error_None in Ea; lia].
    symmetry in E. assert (Hb : b < length w) by (apply nth_error_Some; congruence).
    destruct (W4 a y Ea) as [A1 A2]. destruct (W4 b y E) as [B1 B2].
    assert (Hshort : forall p q, walk parents self y p -> In n' (expand parents q [y]) -> p + q < m -> False).
    { intros p q Hp Hq Hpq. apply level_walk in Hp. specialize (Hlt (p + q) Hpq).
      assert (Hin : In n' (level parents self (p + q))).
      { rewrite <- expand_level. apply in_split in Hp. destruct Hp as (l1 & l2 & ->).
        rewrite expand_app. apply in_app_iff. right. change (y :: l2) with ([y] ++ l2). rewrite expand_app.
        apply in_app_iff. now left. }
      pose proof (find_none _ _ Hlt n' Hin). congruence. }
    destruct (lt_eq_lt_dec a b) as [[Hab|Hab]|Hab]; [|exact Hab|].
    - exfalso. apply (Hshort (m - b) (0 + a)); auto. lia.
    - exfalso. apply (Hshort (m - a) (0 + b)); auto. lia. }
  destruct HW as (w & W1 & W2 & W3). pose proof (NoDup_incl_length W2 W3). lia.
Qed.
