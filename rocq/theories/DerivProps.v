(** C24: discrete derivatives are exact on linear fields and satisfy the vector identities. *)
From Verif Require Import DerivModel ExtendProps.
From Coq Require Import ZifyNat ZifyBool Lqa Qfield.
Open Scope Z_scope.

(** ** specification *)
(** an axis for [n] values: as many nodes, or as many cells between their nodes *)
Definition wf_axis (c : bool) (a : axis) (n : Z) : Prop :=
  1 <= n /\ shape (nodes a) = [if c then n + 1 else n] /\ shape (centres a) = shape (mid (nodes a)) /\
  forall i, 0 <= i < len (centres a) -> (at1 (centres a) i == at1 (mid (nodes a)) i)%Q.
(** a field with [n k] values along axis [k] and [m] components *)
Definition wf (f : fld) (n : nat -> Z) (m : nat) : Prop :=
  (forall k, (k < 3)%nat -> wf_axis (cell f) (ax f k) (n k)) /\ length (comps f) = m /\
  Forall (fun v => shape v = [n 0%nat; n 1%nat; n 2%nat]) (comps f).
(** coordinate along axis [k] of the [i]-th value *)
Definition pos (f : fld) (k : nat) (i : Z) : Q := at1 (crd f k) i.
Definition distinct (f : fld) (n : nat -> Z) : Prop :=
  forall k i j, (k < 3)%nat -> 0 <= i < n k -> 0 <= j < n k -> i <> j -> ~ (pos f k i == pos f k j)%Q.
(** one component *)
Definition val (f : fld) (c : nat) (i j l : Z) : Q := match nth_error (comps f) c with Some v => get v [i; j; l] | None => 0%Q end.
Definition inside (n : nat -> Z) (i j l : Z) : Prop := 0 <= i < n 0%nat /\ 0 <= j < n 1%nat /\ 0 <= l < n 2%nat.
(** component [c] is linear: a x + b y + c z + d *)
Record lin := LIN { la : Q; lb : Q; lc : Q; ld : Q }.
Definition linear (f : fld) (n : nat -> Z) (c : nat) (t : lin) : Prop :=
  forall i j l, inside n i j l -> (val f c i j l == la t * pos f 0 i + lb t * pos f 1 j + lc t * pos f 2 l + ld t)%Q.
(** all places of the field, or the inner ones *)
Definition size (bnd : bool) (n : nat -> Z) (k : nat) : Z := if bnd then n k else n k - 2.
Definition enough (bnd : bool) (n : nat -> Z) : Prop := forall k, (k < 3)%nat -> if bnd then 2 <= n k else 3 <= n k.
(** the [i]-th place of the result in the field *)
Definition ce (bnd : bool) (i : Z) : Z := if bnd then i else i + 1.
(** same places *)
Definition same_places (bnd : bool) (f r : fld) (n : nat -> Z) : Prop :=
  forall k i, (k < 3)%nat -> 0 <= i < size bnd n k -> (pos r k i == pos f k (ce bnd i))%Q.

(** ** what the derivatives compute *)
Definition up (bnd : bool) (n i : Z) : Z := if bnd then Z.min (i + 1) (n - 1) else i + 2.
Definition dn (bnd : bool) (i : Z) : Z := if bnd then Z.max (i - 1) 0 else i.
Definition deriv (b : bool) (k : nat) (V : Z -> Z -> Z -> Q) (p : nat -> Z -> Q) (n : nat -> Z) (i j l : Z) : Q :=
  match k with
  | 0%nat => (V (up b (n 0%nat) i) (ce b j) (ce b l) - V (dn b i) (ce b j) (ce b l)) / (p 0%nat (up b (n 0%nat) i) - p 0%nat (dn b i))
  | 1%nat => (V (ce b i) (up b (n 1%nat) j) (ce b l) - V (ce b i) (dn b j) (ce b l)) / (p 1%nat (up b (n 1%nat) j) - p 1%nat (dn b j))
  | _ => (V (ce b i) (ce b j) (up b (n 2%nat) l) - V (ce b i) (ce b j) (dn b l)) / (p 2%nat (up b (n 2%nat) l) - p 2%nat (dn b l))
  end%Q.

Definition cl (n x : Z) : Z := Z.max 0 (Z.min (n - 1) x).

Lemma ext_val v n0 n1 n2 : shape v = [n0; n1; n2] -> 1 <= n0 -> 1 <= n1 -> 1 <= n2 ->
  exists v', extend_boundaries_ndarr 1 1 0 v (AxList [0; 1; 2]%nat) None 0 = Some v' /\ shape v' = [n0 + 2; n1 + 2; n2 + 2] /\
    forall i j l, 0 <= i < n0 + 2 -> 0 <= j < n1 + 2 -> 0 <= l < n2 + 2 ->
      (get v' [i; j; l] == get v [cl n0 (i - 1); cl n1 (j - 1); cl n2 (l - 1)])%Q.
Proof.
  intros Hs H0 H1 H2.
  assert (G : good_axes v (array_axes None [0; 1; 2]%nat)).
  { split; [cbn; repeat constructor; cbn; intuition discriminate|]. rewrite Hs. cbn. intros k [<-|[<-|[<-|[]]]]; lia. }
  destruct (C38_interior v 1 1 0 [0; 1; 2]%nat None 0 (or_introl eq_refl) G) as (v' & E & Sh & _). exists v'. split; [exact E|].
  rewrite Hs in Sh. cbn in Sh. assert (Sh' : shape v' = [n0 + 2; n1 + 2; n2 + 2]) by (rewrite Sh; apply f_equal2; [lia|apply f_equal2; [lia|apply f_equal2; [lia|reflexivity]]]). split; [exact Sh'|].
  intros i j l Hi Hj Hl. pose proof (C38_order_0 v 1 1 0 [0; 1; 2]%nat None v' G) as K.
  specialize (K ltac:(rewrite Hs; repeat constructor; assumption) (or_introl (Qeq_refl 0)) E [i; j; l]).
  rewrite K by (rewrite Sh'; repeat constructor; lia). rewrite Hs. cbn. reflexivity.
Qed.
Lemma ext_crd c n : shape c = [n] -> 1 <= n ->
  exists c', extend_boundaries_ndarr 1 1 1 c (AxList [0%nat]) None 0 = Some c' /\ shape c' = [n + 2] /\
    (forall i, 0 <= i < n -> at1 c' (i + 1) = at1 c i) /\
    (forall i, 0 <= i < n + 2 -> (at1 c' i == if n =? 1 then at1 c 0 + inject_Z (i - 1) else at1 c (cl n (i - 1)))%Q).
Proof.
  intros Hs Hn. assert (G : good_axes c (array_axes None [0%nat])).
  { split; [cbn; repeat constructor; cbn; intuition discriminate|]. rewrite Hs. cbn. intros k [<-|[]]. lia. }
  destruct (C38_interior c 1 1 1 [0%nat] None 0 (or_introl eq_refl) G) as (c' & E & Sh & In'). exists c'. split; [exact E|].
  rewrite Hs in Sh. cbn in Sh. assert (Sh' : shape c' = [n + 2]) by (rewrite Sh; apply f_equal2; [lia|reflexivity]). split; [exact Sh'|].
  assert (Mid : forall i, 0 <= i < n -> at1 c' (i + 1) = at1 c i).
  { intros i Hi. unfold at1. rewrite In'; cbn [array_axes]; unfold place; cbn; (replace (i + 1 - 1) with i by lia); [reflexivity|]. rewrite Hs. repeat constructor; lia. }
  split; [exact Mid|]. intros i Hi. destruct (Z.eqb_spec n 1) as [->|Hn1].
  - destruct (Z.eq_dec i 1) as [->|Hi1].
    + replace 1 with (0 + 1) at 1 by reflexivity. rewrite Mid by lia. cbn. ring.
    + unfold extend_boundaries_ndarr in E. cbn [extend_loop] in E. rewrite Hs in E. cbn [nth_error] in E. unfold extend_axis in E. cbn in E. injection E as <-.
      assert (Hc : i = 0 \/ i = 2) by lia. destruct Hc as [-> | ->]; unfold at1; cbn; unfold embed; rewrite Hs; cbn; unfold inject_Z; ring.
  - pose proof (C38_order_0 c 1 1 1 [0%nat] None c' G) as K. specialize (K ltac:(rewrite Hs; repeat constructor; assumption)).
    specialize (K ltac:(right; rewrite Hs; repeat constructor; lia) E [i]). unfold at1. rewrite K by (rewrite Sh'; repeat constructor; lia). rewrite Hs. cbn. reflexivity.
Qed.

Lemma all_ext_spec l n0 n1 n2 : Forall (fun v => shape v = [n0; n1; n2]) l -> 1 <= n0 -> 1 <= n1 -> 1 <= n2 ->
  exists l', all_ext l = Some l' /\ Forall2 (fun v v' => shape v' = [n0 + 2; n1 + 2; n2 + 2] /\
    forall i j k, 0 <= i < n0 + 2 -> 0 <= j < n1 + 2 -> 0 <= k < n2 + 2 -> (get v' [i; j; k] == get v [cl n0 (i - 1); cl n1 (j - 1); cl n2 (k - 1)])%Q) l l'.
Proof.
  intros F H0 H1 H2. induction F as [|v l Hv F (l' & E & IH)]; [exists []; split; constructor|].
  destruct (ext_val v n0 n1 n2 Hv H0 H1 H2) as (v' & Ev & Sv). exists (v' :: l'). cbn [all_ext]. rewrite Ev, E. split; [reflexivity|]. constructor; assumption.
Qed.

Lemma mid_shape a N : shape a = [N] -> shape (mid a) = [if N =? 1 then 1 else N - 1].
Proof. intros H. unfold mid, len. rewrite H. cbn [nth]. destruct (Z.eqb_spec N 1) as [->|]; [exact H|reflexivity]. Qed.

Lemma wf_len c a n : wf_axis c a n -> shape (if c then centres a else nodes a) = [n].
Proof.
  intros (Hn & Hs & Hc & _). destruct c; [|exact Hs]. rewrite Hc, (mid_shape _ _ Hs). destruct (Z.eqb_spec (n + 1) 1); [lia|]. f_equal. lia.
Qed.

(** axis after [prep] and [trim] *)
Definition pax (bnd : bool) (c : bool) (a a' : axis) (n : Z) : Prop :=
  let x := if c then centres a else nodes a in let x' := if c then centres a' else nodes a' in
  let y' := if c then centres (trim a') else nodes (trim a') in
  shape x' = [if bnd then n + 2 else n] /\
  (forall i, 0 <= i < (if bnd then n + 2 else n) -> (at1 x' i == if bnd then (if n =? 1 then at1 x 0 + inject_Z (i - 1) else at1 x (cl n (i - 1))) else at1 x i)%Q) /\
  wf_axis c (trim a') (if bnd then n else n - 2) /\
  forall i, 0 <= i < (if bnd then n else n - 2) -> (at1 y' i == at1 x (ce bnd i))%Q.

Lemma pax_false c a n : wf_axis c a n -> 3 <= n -> pax false c a a n.
Proof.
  intros W Hn. pose proof (wf_len c a n W) as HL. destruct W as (Hn1 & Hs & Hc & Hm). unfold pax, ce.
  assert (St : shape (nodes (trim a)) = [if c then n - 2 + 1 else n - 2]).
  { unfold trim, cut. cbn [nodes shape]. rewrite Hs. cbn [map]. f_equal. destruct c; lia. }
  split; [exact HL|]. split; [reflexivity|]. split.
  - split; [lia|]. split; [exact St|]. split; [reflexivity|]. intros. unfold trim. cbn [centres nodes]. reflexivity.
  - intros i Hi. destruct c.
    + unfold trim. cbn [centres]. rewrite Hm.
      2:{ unfold len. rewrite Hc, (mid_shape _ _ Hs). cbn [nth]. destruct (Z.eqb_spec (n + 1) 1); lia. }
      unfold mid, len, cut. cbn [shape]. rewrite Hs. cbn [map nth]. destruct (Z.eqb_spec (Z.max 0 (n + 1 - 2)) 1); [lia|]. destruct (Z.eqb_spec (n + 1) 1); [lia|].
      unfold at1. cbn [get hd add_ix]. replace (1 + i) with (i + 1) by lia. replace (1 + (i + 1)) with (i + 1 + 1) by lia. reflexivity.
    + unfold trim, at1, cut. cbn [nodes get add_ix]. replace (1 + i) with (i + 1) by lia. reflexivity.
Qed.
Lemma pax_true c a n : wf_axis c a n -> exists a', ext_axis a = Some a' /\ pax true c a a' n.
Proof.
  intros W. pose proof (wf_len c a n W) as HL. destruct W as (Hn1 & Hs & Hc & Hm).
  set (N := if c then n + 1 else n) in *. assert (HN : 1 <= N) by (subst N; destruct c; lia).
  destruct (ext_crd (nodes a) N Hs HN) as (nc' & En & Sn & Mn & Vn).
  pose proof (mid_shape _ _ Hs) as Hms. rewrite <- Hc in Hms. set (M := if N =? 1 then 1 else N - 1) in *.
  assert (HM : 1 <= M) by (subst M; destruct (Z.eqb_spec N 1); lia).
  destruct (ext_crd (centres a) M Hms HM) as (cc' & Ec & Sc & Mc & Vc).
  exists (AX nc' cc'). unfold ext_axis, extend_crds. rewrite En, Ec. split; [reflexivity|]. unfold pax, ce. cbn [centres nodes].
  assert (St : shape (nodes (trim (AX nc' cc'))) = [N]).
  { unfold trim, cut. cbn [nodes shape]. rewrite Sn. cbn [map]. f_equal. lia. }
  assert (Vt : forall i, 0 <= i < N -> at1 (nodes (trim (AX nc' cc'))) i = at1 (nodes a) i).
  { intros i Hi. transitivity (at1 nc' (i + 1)); [|exact (Mn i Hi)]. unfold trim, at1, cut. cbn [nodes get add_ix]. replace (1 + i) with (i + 1) by lia. reflexivity. }
  assert (EM : c = true -> M = n) by (intros ->; subst M N; destruct (Z.eqb_spec (n + 1) 1); lia).
  split; [destruct c; [rewrite Sc, EM by reflexivity; reflexivity|exact Sn]|].
  split; [|split].
  - intros i Hi. destruct c; [rewrite Vc by (rewrite EM by reflexivity; exact Hi); rewrite EM by reflexivity; reflexivity|apply Vn; exact Hi].
  - split; [exact Hn1|]. split; [exact St|]. split; [reflexivity|]. intros. unfold trim. cbn [centres nodes]. reflexivity.
  - intros i Hi. destruct c; [|rewrite Vt by exact Hi; reflexivity]. subst N. rewrite Hm by (unfold len; rewrite Hms; cbn [nth]; rewrite EM by reflexivity; exact Hi).
    change (centres (trim (AX nc' cc'))) with (mid (nodes (trim (AX nc' cc')))). set (t := nodes (trim (AX nc' cc'))) in *. unfold mid, len. rewrite St, Hs. cbn [nth].
    destruct (Z.eqb_spec (n + 1) 1); [lia|]. unfold at1 at 1 5. cbn [get hd]. rewrite !Vt by lia. reflexivity.
Qed.

(** the whole field *)
Lemma prep_spec b f n m : wf f n m -> (b = false -> forall k, (k < 3)%nat -> 3 <= n k) ->
  exists f', prep b f = Some f' /\ cell f' = cell f /\
    (forall k, (k < 3)%nat -> pax b (cell f) (ax f k) (ax f' k) (n k)) /\
    Forall2 (fun v v' => shape v' = map (fun L => if b then L + 2 else L) [n 0%nat; n 1%nat; n 2%nat] /\
      forall i j l, 0 <= i < (if b then n 0%nat + 2 else n 0%nat) -> 0 <= j < (if b then n 1%nat + 2 else n 1%nat) -> 0 <= l < (if b then n 2%nat + 2 else n 2%nat) ->
        (get v' [i; j; l] == get v (if b then [cl (n 0%nat) (i - 1); cl (n 1%nat) (j - 1); cl (n 2%nat) (l - 1)] else [i; j; l]))%Q) (comps f) (comps f').
Proof.
  intros (Hax & Hlen & Hsh) Hn. destruct b; cbn [prep].
  - destruct (Hax 0%nat ltac:(lia)) as (N0 & _). destruct (Hax 1%nat ltac:(lia)) as (N1 & _). destruct (Hax 2%nat ltac:(lia)) as (N2 & _).
    destruct (all_ext_spec (comps f) (n 0%nat) (n 1%nat) (n 2%nat) Hsh N0 N1 N2) as (l' & El & Fl). rewrite El.
    destruct (pax_true _ _ _ (Hax 0%nat ltac:(lia))) as (a0 & E0 & P0). destruct (pax_true _ _ _ (Hax 1%nat ltac:(lia))) as (a1 & E1 & P1). destruct (pax_true _ _ _ (Hax 2%nat ltac:(lia))) as (a2 & E2 & P2).
    rewrite E0, E1, E2. eexists. split; [reflexivity|]. cbn [cell ax comps]. split; [reflexivity|]. split; [|exact Fl].
    intros [|[|[|k]]] Hk; try lia; assumption.
  - exists f. split; [reflexivity|]. split; [reflexivity|]. split; [intros k Hk; apply pax_false; auto|].
    clear Hlen. induction Hsh as [|v l Hv F IH]; constructor; [|exact IH]. split; [rewrite Hv; reflexivity|]. intros. reflexivity.
Qed.

Lemma dd_spec b f n m f' k c v' : wf f n m -> (b = false -> forall k, (k < 3)%nat -> 3 <= n k) -> prep b f = Some f' ->
  (k < 3)%nat -> nth_error (comps f') c = Some v' ->
  shape (dd k v' (crd f' k)) = [size b n 0; size b n 1; size b n 2] /\
  forall i j l, inside (size b n) i j l -> (get (dd k v' (crd f' k)) [i; j; l] == deriv b k (val f c) (pos f) n i j l)%Q.
Proof.
  intros W Hn Hp Hk Hc. destruct (prep_spec b f n m W Hn) as (g & Eg & Cg & Pg & Fg). rewrite Hp in Eg. injection Eg as <-.
  assert (Hv : exists v, nth_error (comps f) c = Some v /\ shape v' = map (fun L => if b then L + 2 else L) [n 0%nat; n 1%nat; n 2%nat] /\
     forall i j l, 0 <= i < (if b then n 0%nat + 2 else n 0%nat) -> 0 <= j < (if b then n 1%nat + 2 else n 1%nat) -> 0 <= l < (if b then n 2%nat + 2 else n 2%nat) ->
        (get v' [i; j; l] == get v (if b then [cl (n 0%nat) (i - 1); cl (n 1%nat) (j - 1); cl (n 2%nat) (l - 1)] else [i; j; l]))%Q).
  { clear - Fg Hc. revert c Hc. induction Fg as [|v w l l' Hw F IH]; intros [|c] Hc; cbn in Hc; try discriminate.
    - injection Hc as ->. exists v. split; [reflexivity|exact Hw].
    - apply IH. exact Hc. }
  destruct Hv as (v & Ev & Sv & Gv). destruct W as (Hax & _).
  assert (N : forall k, (k < 3)%nat -> 1 <= n k) by (intros q Hq; destruct (Hax q Hq) as (Z0 & _); exact Z0).
  pose proof (N 0%nat ltac:(lia)). pose proof (N 1%nat ltac:(lia)). pose proof (N 2%nat ltac:(lia)).
  split.
  { unfold dd, cut. cbn [shape]. rewrite Sv. unfold size. cbn [map]. destruct b; [apply f_equal2; [lia|apply f_equal2; [lia|apply f_equal2; [lia|reflexivity]]]|].
    pose proof (Hn eq_refl 0%nat ltac:(lia)). pose proof (Hn eq_refl 1%nat ltac:(lia)). pose proof (Hn eq_refl 2%nat ltac:(lia)). apply f_equal2; [lia|apply f_equal2; [lia|apply f_equal2; [lia|reflexivity]]]. }
  intros i j l (Hi & Hj & Hl). unfold size in Hi, Hj, Hl.
  destruct (Pg k Hk) as (_ & Px & _ & _). unfold dd, cut, crd, val, pos. rewrite Ev. cbn [get]. unfold at1 at 1 2. cbn [get]. rewrite Cg.
  set (x' := if cell f then centres (ax f' k) else nodes (ax f' k)) in *.
  assert (X : forall q, get x' (add_ix [2] [q]) = at1 x' (2 + q) /\ get x' (add_ix [0] [q]) = at1 x' (0 + q)) by (intros; split; reflexivity).
  rewrite (proj1 (X _)), (proj2 (X _)). clear X.
  destruct k as [|[|[|k]]]; [| | |lia]; cbn [plus minus add_ix nth deriv]; rewrite !Gv by (destruct b; lia); rewrite !Px by (destruct b; lia); unfold crd; set (x := if cell f then centres (ax f _) else nodes (ax f _)) in *; clear Px Gv; unfold up, dn, ce, cl; destruct b.
  all: try (replace (0 + i) with i by lia; replace (0 + j) with j by lia; replace (0 + l) with l by lia; replace (2 + i) with (i + 2) by lia; replace (2 + j) with (j + 2) by lia; replace (2 + l) with (l + 2) by lia; replace (1 + i) with (i + 1) by lia; replace (1 + j) with (j + 1) by lia; replace (1 + l) with (l + 1) by lia; reflexivity).
  - replace (Z.max 0 (Z.min (n 0%nat - 1) (2 + i - 1))) with (Z.min (i + 1) (n 0%nat - 1)) by lia. replace (Z.max 0 (Z.min (n 0%nat - 1) (0 + i - 1))) with (Z.max (i - 1) 0) by lia.
    replace (Z.max 0 (Z.min (n 1%nat - 1) (1 + j - 1))) with j by lia. replace (Z.max 0 (Z.min (n 2%nat - 1) (1 + l - 1))) with l by lia.
    destruct (Z.eqb_spec (n 0%nat) 1) as [E|E]; [|reflexivity]. assert (i = 0) by lia. subst i. rewrite E. unfold Qdiv. change (Z.min (0 + 1) (1 - 1)) with 0. change (Z.max (0 - 1) 0) with 0. ring.
  - replace (Z.max 0 (Z.min (n 1%nat - 1) (2 + j - 1))) with (Z.min (j + 1) (n 1%nat - 1)) by lia. replace (Z.max 0 (Z.min (n 1%nat - 1) (0 + j - 1))) with (Z.max (j - 1) 0) by lia.
    replace (Z.max 0 (Z.min (n 0%nat - 1) (1 + i - 1))) with i by lia. replace (Z.max 0 (Z.min (n 2%nat - 1) (1 + l - 1))) with l by lia.
    destruct (Z.eqb_spec (n 1%nat) 1) as [E|E]; [|reflexivity]. assert (j = 0) by lia. subst j. rewrite E. unfold Qdiv. change (Z.min (0 + 1) (1 - 1)) with 0. change (Z.max (0 - 1) 0) with 0. ring.
  - replace (Z.max 0 (Z.min (n 2%nat - 1) (2 + l - 1))) with (Z.min (l + 1) (n 2%nat - 1)) by lia. replace (Z.max 0 (Z.min (n 2%nat - 1) (0 + l - 1))) with (Z.max (l - 1) 0) by lia.
    replace (Z.max 0 (Z.min (n 0%nat - 1) (1 + i - 1))) with i by lia. replace (Z.max 0 (Z.min (n 1%nat - 1) (1 + j - 1))) with j by lia.
    destruct (Z.eqb_spec (n 2%nat) 1) as [E|E]; [|reflexivity]. assert (l = 0) by lia. subst l. rewrite E. unfold Qdiv. change (Z.min (0 + 1) (1 - 1)) with 0. change (Z.max (0 - 1) 0) with 0. ring.
Qed.

Definition big (b : bool) (n : nat -> Z) : Prop := b = false -> forall k, (k < 3)%nat -> 3 <= n k.
Lemma enough_big b n : enough b n -> big b n.
Proof. intros E -> k Hk. exact (E k Hk). Qed.

Lemma result_wf b f n m f' r m' : wf f n m -> big b n -> prep b f = Some f' ->
  cell r = cell f -> (forall k, ax r k = trim (ax f' k)) -> length (comps r) = m' ->
  Forall (fun v => shape v = [size b n 0; size b n 1; size b n 2]) (comps r) ->
  wf r (size b n) m' /\ same_places b f r n.
Proof.
  intros W Hb Hp Hc Ha Hl Hs. destruct (prep_spec b f n m W Hb) as (g & Eg & Cg & Pg & _). rewrite Hp in Eg. injection Eg as <-.
  split; [split; [|split; assumption]|].
  - intros k Hk. rewrite Hc, Ha. destruct (Pg k Hk) as (_ & _ & Wt & _). unfold size. exact Wt.
  - intros k i Hk Hi. destruct (Pg k Hk) as (_ & _ & _ & Pt). unfold pos, crd. rewrite Hc, Ha. apply Pt. exact Hi.
Qed.

Lemma comps_prep b f n m f' : wf f n m -> big b n -> prep b f = Some f' -> length (comps f') = m.
Proof.
  intros W Hb Hp. destruct (prep_spec b f n m W Hb) as (g & Eg & _ & _ & Fg). rewrite Hp in Eg. injection Eg as <-.
  destruct W as (_ & Hm & _). rewrite <- Hm. clear - Fg. induction Fg; cbn; congruence.
Qed.
Lemma prep_some b f n m : wf f n m -> big b n -> exists f', prep b f = Some f' /\ cell f' = cell f.
Proof. intros W Hb. destruct (prep_spec b f n m W Hb) as (g & Eg & Cg & _). exists g. split; assumption. Qed.

(** each derivative in terms of the differences *)
Lemma grad_formula b f n : wf f n 1 -> big b n -> cell f = true ->
  exists r, grad b f = Some r /\ cell r = true /\ wf r (size b n) 3 /\ same_places b f r n /\
    forall k i j l, (k < 3)%nat -> inside (size b n) i j l -> (val r k i j l == deriv b k (val f 0) (pos f) n i j l)%Q.
Proof.
  intros W Hb Hc. destruct (prep_some b f n 1 W Hb) as (f' & Hp & Hc'). pose proof (comps_prep b f n 1 f' W Hb Hp) as Hl.
  unfold grad. rewrite Hp. destruct (comps f') as [|v [|? ?]] eqn:Ec; try discriminate.
  assert (Hv : nth_error (comps f') 0 = Some v) by (rewrite Ec; reflexivity).
  destruct (dd_spec b f n 1 f' 0 0 v W Hb Hp ltac:(lia) Hv) as (S0 & D0). destruct (dd_spec b f n 1 f' 1 0 v W Hb Hp ltac:(lia) Hv) as (S1 & D1). destruct (dd_spec b f n 1 f' 2 0 v W Hb Hp ltac:(lia) Hv) as (S2 & D2).
  set (gshape := [len (centres (trim (ax f' 0))); len (centres (trim (ax f' 1))); len (centres (trim (ax f' 2)))]).
  assert (Gs : gshape = [size b n 0; size b n 1; size b n 2]).
  { destruct (prep_spec b f n 1 W Hb) as (g & Eg & _ & Pg & _). rewrite Hp in Eg. injection Eg as <-.
    assert (K : forall k, (k < 3)%nat -> len (centres (trim (ax f' k))) = size b n k).
    { intros k Hk. destruct (Pg k Hk) as (_ & _ & Wt & _). rewrite Hc in Wt. apply wf_len in Wt. unfold len. rewrite Wt. reflexivity. }
    subst gshape. rewrite !K by lia. reflexivity. }
  rewrite S0, Gs. cbn [fits]. rewrite !Z.eqb_refl. cbn [orb andb].
  eexists. split; [reflexivity|]. cbn [cell]. split; [reflexivity|].
  set (r := FLD true _ _).
  destruct (result_wf b f n 1 f' r 3 W Hb Hp ltac:(symmetry; exact Hc) ltac:(reflexivity) ltac:(reflexivity) ltac:(repeat constructor)) as (Wr & Sp).
  split; [exact Wr|]. split; [exact Sp|]. intros [|[|[|k]]] i j l Hk Hin; [apply D0|apply D1|apply D2|lia]; exact Hin.
Qed.

Lemma div_formula b f n : wf f n 3 -> big b n ->
  exists r, div b f = Some r /\ cell r = cell f /\ wf r (size b n) 1 /\ same_places b f r n /\
    forall i j l, inside (size b n) i j l ->
      (val r 0 i j l == deriv b 0 (val f 0) (pos f) n i j l + deriv b 1 (val f 1) (pos f) n i j l + deriv b 2 (val f 2) (pos f) n i j l)%Q.
Proof.
  intros W Hb. destruct (prep_some b f n 3 W Hb) as (f' & Hp & Hc'). pose proof (comps_prep b f n 3 f' W Hb Hp) as Hl.
  unfold div. rewrite Hp. destruct (comps f') as [|vx [|vy [|vz [|? ?]]]] eqn:Ec; try discriminate.
  destruct (dd_spec b f n 3 f' 0 0 vx W Hb Hp ltac:(lia) ltac:(rewrite Ec; reflexivity)) as (S0 & D0).
  destruct (dd_spec b f n 3 f' 1 1 vy W Hb Hp ltac:(lia) ltac:(rewrite Ec; reflexivity)) as (S1 & D1).
  destruct (dd_spec b f n 3 f' 2 2 vz W Hb Hp ltac:(lia) ltac:(rewrite Ec; reflexivity)) as (S2 & D2).
  eexists. split; [reflexivity|]. cbn [cell]. split; [exact Hc'|]. set (r := FLD _ _ _).
  destruct (result_wf b f n 3 f' r 1 W Hb Hp Hc' ltac:(reflexivity) ltac:(reflexivity) ltac:(repeat constructor; exact S0)) as (Wr & Sp).
  split; [exact Wr|]. split; [exact Sp|]. intros i j l Hin. unfold val at 1. subst r. cbn [comps nth_error]. cbn [op2 get].
  rewrite D0, D1, D2 by exact Hin. reflexivity.
Qed.

Lemma curl_formula b f n : wf f n 3 -> big b n ->
  exists r, curl b f = Some r /\ cell r = cell f /\ wf r (size b n) 3 /\ same_places b f r n /\
    forall i j l, inside (size b n) i j l ->
      (val r 0 i j l == deriv b 1 (val f 2) (pos f) n i j l - deriv b 2 (val f 1) (pos f) n i j l)%Q /\
      (val r 1 i j l == deriv b 2 (val f 0) (pos f) n i j l - deriv b 0 (val f 2) (pos f) n i j l)%Q /\
      (val r 2 i j l == deriv b 0 (val f 1) (pos f) n i j l - deriv b 1 (val f 0) (pos f) n i j l)%Q.
Proof.
  intros W Hb. destruct (prep_some b f n 3 W Hb) as (f' & Hp & Hc'). pose proof (comps_prep b f n 3 f' W Hb Hp) as Hl.
  unfold curl. rewrite Hp. destruct (comps f') as [|vx [|vy [|vz [|? ?]]]] eqn:Ec; try discriminate.
  assert (Nx : nth_error (comps f') 0 = Some vx) by (rewrite Ec; reflexivity). assert (Ny : nth_error (comps f') 1 = Some vy) by (rewrite Ec; reflexivity). assert (Nz : nth_error (comps f') 2 = Some vz) by (rewrite Ec; reflexivity).
  destruct (dd_spec b f n 3 f' 1 2 vz W Hb Hp ltac:(lia) Nz) as (S1 & D1). destruct (dd_spec b f n 3 f' 2 1 vy W Hb Hp ltac:(lia) Ny) as (_ & D2).
  destruct (dd_spec b f n 3 f' 0 2 vz W Hb Hp ltac:(lia) Nz) as (S3 & D3). destruct (dd_spec b f n 3 f' 2 0 vx W Hb Hp ltac:(lia) Nx) as (_ & D4).
  destruct (dd_spec b f n 3 f' 0 1 vy W Hb Hp ltac:(lia) Ny) as (S5 & D5). destruct (dd_spec b f n 3 f' 1 0 vx W Hb Hp ltac:(lia) Nx) as (_ & D6).
  eexists. split; [reflexivity|]. cbn [cell]. split; [exact Hc'|]. set (r := FLD _ _ _).
  destruct (result_wf b f n 3 f' r 3 W Hb Hp Hc' ltac:(reflexivity) ltac:(reflexivity) ltac:(repeat constructor; assumption)) as (Wr & Sp).
  split; [exact Wr|]. split; [exact Sp|]. intros i j l Hin. unfold val at 1 4 7. subst r. cbn [comps nth_error]. cbn [op2 opp1 get].
  rewrite (D1 i j l Hin), (D2 i j l Hin), (D3 i j l Hin), (D4 i j l Hin), (D5 i j l Hin), (D6 i j l Hin).
  split; [reflexivity|]. split; [ring|reflexivity].
Qed.

Lemma deriv_lin b f n c t k i j l : enough b n -> distinct f n -> linear f n c t -> inside (size b n) i j l -> (k < 3)%nat ->
  (deriv b k (val f c) (pos f) n i j l == match k with 0%nat => la t | 1%nat => lb t | _ => lc t end)%Q.
Proof.
  intros En Hd Hl (Hi & Hj & Hlr) Hk. unfold linear in Hl. pose proof (En 0%nat ltac:(lia)) as E0. pose proof (En 1%nat ltac:(lia)) as E1. pose proof (En 2%nat ltac:(lia)) as E2. unfold size in *.
  assert (Nz : forall p q : Q, ~ (p == q)%Q -> ~ (p - q == 0)%Q) by (intros p q H E; apply H; lra).
  destruct k as [|[|[|k]]]; [| | |lia]; cbn [deriv]; unfold up, dn, ce; rewrite !Hl by (unfold inside; destruct b; lia);
    match goal with |- context [(_ / (?p - ?q))%Q] => assert (Hpq : ~ (p - q == 0)%Q) by (apply Nz; apply Hd; destruct b; lia) end; field; exact Hpq.
Qed.

(** ** exact on linear fields *)
Theorem C24_grad : forall b f n t, wf f n 1 -> cell f = true -> enough b n -> distinct f n -> linear f n 0 t ->
  exists r, grad b f = Some r /\ wf r (size b n) 3 /\ cell r = cell f /\ same_places b f r n /\
    forall i j l, inside (size b n) i j l -> (val r 0 i j l == la t)%Q /\ (val r 1 i j l == lb t)%Q /\ (val r 2 i j l == lc t)%Q.
Proof.
  intros b f n t W Hc En Hd Hl. destruct (grad_formula b f n W (enough_big _ _ En) Hc) as (r & E & Cr & Wr & Sp & F).
  exists r. split; [exact E|]. split; [exact Wr|]. split; [congruence|]. split; [exact Sp|]. intros i j l Hin.
  rewrite !F by (assumption || lia). rewrite !(deriv_lin b f n 0 t) by (assumption || lia). repeat split; reflexivity.
Qed.
Print Assumptions C24_grad.
Theorem C24_div : forall b f n tx ty tz, wf f n 3 -> enough b n -> distinct f n ->
  linear f n 0 tx -> linear f n 1 ty -> linear f n 2 tz ->
  exists r, div b f = Some r /\ wf r (size b n) 1 /\ cell r = cell f /\ same_places b f r n /\
    forall i j l, inside (size b n) i j l -> (val r 0 i j l == la tx + lb ty + lc tz)%Q.
Proof.
  intros b f n tx ty tz W En Hd Hx Hy Hz. destruct (div_formula b f n W (enough_big _ _ En)) as (r & E & Cr & Wr & Sp & F).
  exists r. split; [exact E|]. split; [exact Wr|]. split; [exact Cr|]. split; [exact Sp|]. intros i j l Hin.
  rewrite F by exact Hin. rewrite (deriv_lin b f n 0 tx), (deriv_lin b f n 1 ty), (deriv_lin b f n 2 tz) by (assumption || lia). reflexivity.
Qed.
Print Assumptions C24_div.
Theorem C24_curl : forall b f n tx ty tz, wf f n 3 -> enough b n -> distinct f n ->
  linear f n 0 tx -> linear f n 1 ty -> linear f n 2 tz ->
  exists r, curl b f = Some r /\ wf r (size b n) 3 /\ cell r = cell f /\ same_places b f r n /\
    forall i j l, inside (size b n) i j l ->
      (val r 0 i j l == lb tz - lc ty)%Q /\ (val r 1 i j l == lc tx - la tz)%Q /\ (val r 2 i j l == la ty - lb tx)%Q.
Proof.
  intros b f n tx ty tz W En Hd Hx Hy Hz. destruct (curl_formula b f n W (enough_big _ _ En)) as (r & E & Cr & Wr & Sp & F).
  exists r. split; [exact E|]. split; [exact Wr|]. split; [exact Cr|]. split; [exact Sp|]. intros i j l Hin.
  destruct (F i j l Hin) as (F0 & F1 & F2). rewrite F0, F1, F2. rewrite !(deriv_lin b f n 0 tx), !(deriv_lin b f n 1 ty), !(deriv_lin b f n 2 tz) by (assumption || lia). repeat split; reflexivity.
Qed.
Print Assumptions C24_curl.

(** ** identities *)
(** boundaries treated alike, or inner places only the second time *)
Definition compatible (b1 b2 : bool) : Prop := b1 = b2 \/ (b1 = true /\ b2 = false).
(** differences along two axes commute *)
Lemma ce_range b n k i : 0 <= i < size b n k -> 0 <= ce b i < n k.
Proof. unfold size, ce. destruct b; lia. Qed.
Lemma up_in b (q : nat -> Z) k i : 0 <= i < size b q k -> 0 <= up b (q k) i < q k.
Proof. unfold size, up. destruct b; lia. Qed.
Lemma dn_in b (q : nat -> Z) k i : 0 <= i < size b q k -> 0 <= dn b i < q k.
Proof. unfold size, dn. destruct b; lia. Qed.
(* the second derivative of a field whose values are known *)
Lemma deriv_ext b k V V' p p' (q : nat -> Z) i j l : inside (size b q) i j l -> (k < 3)%nat ->
  (forall i j l, inside q i j l -> (V i j l == V' i j l)%Q) -> (forall k i, (k < 3)%nat -> 0 <= i < q k -> (p k i == p' k i)%Q) ->
  (deriv b k V p q i j l == deriv b k V' p' q i j l)%Q.
Proof.
  intros (Hi & Hj & Hl) Hk HV Hp.
  pose proof (up_in b q _ _ Hi). pose proof (up_in b q _ _ Hj). pose proof (up_in b q _ _ Hl). pose proof (dn_in b q _ _ Hi). pose proof (dn_in b q _ _ Hj). pose proof (dn_in b q _ _ Hl).
  pose proof (ce_range b q _ _ Hi). pose proof (ce_range b q _ _ Hj). pose proof (ce_range b q _ _ Hl).
  destruct k as [|[|[|k]]]; [| | |lia]; cbn [deriv]; rewrite !HV by (split; [|split]; assumption); rewrite !Hp by (assumption || lia); reflexivity.
Qed.
Lemma deriv_minus b k V W p (q : nat -> Z) i j l : (deriv b k (fun i j l => V i j l - W i j l) p q i j l == deriv b k V p q i j l - deriv b k W p q i j l)%Q.
Proof. destruct k as [|[|k]]; cbn [deriv]; unfold Qdiv; ring. Qed.
Section COMM.
Variables (b1 b2 : bool) (n : nat -> Z).
Hypothesis (Hb : compatible b1 b2).
Lemma up_ce k i : 0 <= i < size b2 (size b1 n) k -> ce b1 (up b2 (size b1 n k) i) = up b1 (n k) (ce b2 i).
Proof. intros H. unfold size, ce, up in *. destruct Hb as [<-|[-> ->]]; [destruct b1|]; lia. Qed.
Lemma dn_ce k i : 0 <= i < size b2 (size b1 n) k -> ce b1 (dn b2 i) = dn b1 (ce b2 i).
Proof. intros H. unfold size, ce, dn in *. destruct Hb as [<-|[-> ->]]; [destruct b1|]; lia. Qed.

(* second difference: [D] holds the first differences along [k1] of [V] *)
Definition second (k1 k2 : nat) (V : Z -> Z -> Z -> Q) (p : nat -> Z -> Q) (i j l : Z) : Q :=
  deriv b2 k2 (deriv b1 k1 V p n) (fun k x => p k (ce b1 x)) (size b1 n) i j l.
Lemma comm k1 k2 V p i j l : (k1 < 3)%nat -> (k2 < 3)%nat -> inside (size b2 (size b1 n)) i j l ->
  (second k1 k2 V p i j l == second k2 k1 V p i j l)%Q.
Proof.
  intros H1 H2 (Hi & Hj & Hl). pose proof (up_ce _ _ Hi) as Ui. pose proof (up_ce _ _ Hj) as Uj. pose proof (up_ce _ _ Hl) as Ul.
  pose proof (dn_ce _ _ Hi) as Di. pose proof (dn_ce _ _ Hj) as Dj. pose proof (dn_ce _ _ Hl) as Dl.
  unfold second. destruct k1 as [|[|[|k1]]]; [| | |lia]; (destruct k2 as [|[|[|k2]]]; [| | |lia]); try reflexivity; cbn [deriv];
    rewrite ?Ui, ?Uj, ?Ul, ?Di, ?Dj, ?Dl; unfold Qdiv; ring.
Qed.
End COMM.


Theorem C24_div_curl : forall b1 b2 f n, compatible b1 b2 -> wf f n 3 -> big b1 n -> big b2 (size b1 n) ->
  exists c d, curl b1 f = Some c /\ div b2 c = Some d /\
    wf d (size b2 (size b1 n)) 1 /\
    forall i j l, inside (size b2 (size b1 n)) i j l -> (val d 0 i j l == 0)%Q.
Proof.
  intros b1 b2 f n Hb W B1 B2. destruct (curl_formula b1 f n W B1) as (c & E & Cc & Wc & Sp & F). exists c.
  destruct (div_formula b2 c (size b1 n) Wc B2) as (d & Ed & _ & Wd & _ & G). exists d. split; [exact E|]. split; [exact Ed|]. split; [exact Wd|].
  intros i j l Hin. rewrite (G i j l Hin).
  assert (X : forall k V A B, (k < 3)%nat -> (forall i j l, inside (size b1 n) i j l -> (V i j l == A i j l - B i j l)%Q) ->
     (deriv b2 k V (pos c) (size b1 n) i j l == deriv b2 k A (fun k x => pos f k (ce b1 x)) (size b1 n) i j l - deriv b2 k B (fun k x => pos f k (ce b1 x)) (size b1 n) i j l)%Q).
  { intros k V A B Hk HV. rewrite (deriv_ext b2 k V (fun i j l => A i j l - B i j l)%Q (pos c) (fun k x => pos f k (ce b1 x)) (size b1 n) i j l Hin Hk HV Sp). apply deriv_minus. }
  rewrite (X 0%nat _ _ _ ltac:(lia) (fun i j l H => proj1 (F i j l H))), (X 1%nat _ _ _ ltac:(lia) (fun i j l H => proj1 (proj2 (F i j l H)))), (X 2%nat _ _ _ ltac:(lia) (fun i j l H => proj2 (proj2 (F i j l H)))).
  pose proof (comm b1 b2 n Hb 1 0 (val f 2) (pos f) i j l ltac:(lia) ltac:(lia) Hin) as C1.
  pose proof (comm b1 b2 n Hb 2 0 (val f 1) (pos f) i j l ltac:(lia) ltac:(lia) Hin) as C2.
  pose proof (comm b1 b2 n Hb 2 1 (val f 0) (pos f) i j l ltac:(lia) ltac:(lia) Hin) as C3. unfold second in C1, C2, C3.
  rewrite C1, C2, C3. ring.
Qed.
Print Assumptions C24_div_curl.

Theorem C24_curl_grad : forall b1 b2 f n, compatible b1 b2 -> wf f n 1 -> cell f = true -> big b1 n -> big b2 (size b1 n) ->
  exists g c, grad b1 f = Some g /\ curl b2 g = Some c /\
    wf c (size b2 (size b1 n)) 3 /\
    forall k i j l, (k < 3)%nat -> inside (size b2 (size b1 n)) i j l -> (val c k i j l == 0)%Q.
Proof.
  intros b1 b2 f n Hb W Hc B1 B2. destruct (grad_formula b1 f n W B1 Hc) as (g & E & Cg & Wg & Sp & F). exists g.
  destruct (curl_formula b2 g (size b1 n) Wg B2) as (c & Ec & _ & Wc & _ & G). exists c. split; [exact E|]. split; [exact Ec|]. split; [exact Wc|].
  intros k i j l Hk Hin. destruct (G i j l Hin) as (G0 & G1 & G2).
  assert (X : forall k2 k1, (k2 < 3)%nat -> (k1 < 3)%nat -> (deriv b2 k2 (val g k1) (pos g) (size b1 n) i j l == second b1 b2 n k1 k2 (val f 0) (pos f) i j l)%Q).
  { intros k2 k1 H2 H1. unfold second. apply deriv_ext; [exact Hin|exact H2| |exact Sp]. intros i' j' l' H'. apply F; assumption. }
  destruct k as [|[|[|k]]]; [rewrite G0|rewrite G1|rewrite G2|lia]; rewrite !X by lia.
  - rewrite (comm b1 b2 n Hb 2 1) by (assumption || lia). ring.
  - rewrite (comm b1 b2 n Hb 0 2) by (assumption || lia). ring.
  - rewrite (comm b1 b2 n Hb 1 0) by (assumption || lia). ring.
Qed.
Print Assumptions C24_curl_grad.

(** ** where it fails *)
(** Refuted for node centred scalars: the gradient always raises, unless the result has one
    node along every axis. *)
Theorem C24_grad_of_nodes_refuted : forall b f n k, wf f n 1 -> big b n -> cell f = false -> (k < 3)%nat -> 2 <= size b n k ->
  grad b f = None.
Proof.
  intros b f n k W Hb Hc Hk Hsz. destruct (prep_some b f n 1 W Hb) as (f' & Hp & Hc'). pose proof (comps_prep b f n 1 f' W Hb Hp) as Hl.
  unfold grad. rewrite Hp. destruct (comps f') as [|v [|? ?]] eqn:Ec; try reflexivity.
  destruct (dd_spec b f n 1 f' 0 0 v W Hb Hp ltac:(lia) ltac:(rewrite Ec; reflexivity)) as (S0 & _). rewrite S0.
  destruct (prep_spec b f n 1 W Hb) as (g & Eg & _ & Pg & _). rewrite Hp in Eg. injection Eg as <-.
  assert (K : forall k, (k < 3)%nat -> 1 <= size b n k /\ (2 <= size b n k -> len (centres (trim (ax f' k))) = size b n k - 1)).
  { intros q Hq. destruct (Pg q Hq) as (_ & _ & (L1 & Wt & Ws & _) & _). rewrite Hc in Wt. split; [exact L1|]. intros L2. unfold len. rewrite Ws, (mid_shape _ _ Wt). cbn [nth]. unfold size in *.
    destruct (Z.eqb_spec (if b then n q else n q - 2) 1); lia. }
  destruct (K k Hk) as (_ & Kk). specialize (Kk Hsz).
  replace (fits _ _) with false; [reflexivity|]. symmetry. cbn [fits]. destruct k as [|[|[|k]]]; [| | |lia]; rewrite Kk.
  - replace (size b n 0 =? size b n 0 - 1) with false by lia. replace (size b n 0 =? 1) with false by lia. reflexivity.
  - replace (size b n 1 =? size b n 1 - 1) with false by lia. replace (size b n 1 =? 1) with false by lia. apply andb_false_r.
  - replace (size b n 2 =? size b n 2 - 1) with false by lia. replace (size b n 2 =? 1) with false by lia. cbn [orb andb]. rewrite !andb_false_r. reflexivity.
Qed.
Print Assumptions C24_grad_of_nodes_refuted.

Definition unit_axis (N : Z) : axis := let a := ND [N] (fun js => inject_Z (hd 0 js)) in AX a (mid a).
Definition sample : fld :=
  FLD true (fun _ => unit_axis 5)
    [ND [4; 4; 4] (fun _ => 0%Q); ND [4; 4; 4] (fun _ => 0%Q);
     ND [4; 4; 4] (fun js => match js with [i; j; _] => inject_Z (i * i * j) | _ => 0%Q end)].
(** Refuted if the boundaries are left out first and extrapolated then. *)
Theorem C24_mixed_boundaries_refuted : wf sample (fun _ => 4) 3 /\
  exists c d, curl false sample = Some c /\ div true c = Some d /\ ~ (val d 0 0 0 0 == 0)%Q.
Proof.
  split.
  - split; [|split; [reflexivity|repeat constructor]]. intros k Hk. split; [lia|]. split; [reflexivity|]. split; [reflexivity|]. intros. reflexivity.
  - eexists. eexists. split; [reflexivity|]. split; [reflexivity|]. vm_compute. discriminate.
Qed.
Print Assumptions C24_mixed_boundaries_refuted.

(** ** non-trivial case *)
Definition stretched : axis := let a := ND [4] (fun js => inject_Z (hd 0 js * hd 0 js)) in AX a (mid a).
Definition linear_field : fld :=
  FLD true (fun _ => stretched) [ND [3; 3; 3] (fun js => match js with [i; j; l] => 2 * at1 (centres stretched) i - 3 * at1 (centres stretched) j + 1 | _ => 0 end)%Q].
Example C24_ex : wf linear_field (fun _ => 3) 1 /\ cell linear_field = true /\ enough true (fun _ => 3) /\ enough false (fun _ => 3) /\
  distinct linear_field (fun _ => 3) /\ linear linear_field (fun _ => 3) 0 (LIN 2 (-(3)) 0 1).
Proof.
  split. { split; [|split; [reflexivity|repeat constructor]]. intros k Hk. split; [lia|]. split; [reflexivity|]. split; [reflexivity|]. intros. reflexivity. }
  split; [reflexivity|]. split; [intros k Hk; lia|]. split; [intros k Hk; lia|]. split.
  - intros k i j Hk Hi Hj Hij. unfold pos, crd. cbn [linear_field cell ax].
    assert (Ci : i = 0 \/ i = 1 \/ i = 2) by lia. assert (Cj : j = 0 \/ j = 1 \/ j = 2) by lia.
    destruct Ci as [-> | [-> | ->]], Cj as [-> | [-> | ->]]; try contradiction; vm_compute; discriminate.
  - intros i j l _. unfold val, pos, crd. cbn [linear_field comps nth_error get cell ax la lb lc ld]. ring.
Qed.
