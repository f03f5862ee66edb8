(** C58: separators by bisection of a map of topologies. *)
From Verif Require Import SepModel.
From Coq Require Import Lia ZifyBool QArith Qround Qabs Lqa Qpower.
Open Scope Z_scope.

(** * specification *)
Definition proper (r : rect) : Prop := (xl r < xh r)%Q /\ (yl r < yh r)%Q.
Definition inside (r : rect) (x y : Q) : Prop := (xl r <= x /\ x <= xh r /\ yl r <= y /\ y <= yh r)%Q.
Definition interior (r : rect) (x y : Q) : Prop := (xl r < x /\ x < xh r /\ yl r < y /\ y < yh r)%Q.
Definition rim (r : rect) (x y : Q) : Prop := inside r x y /\ (x == xl r \/ x == xh r \/ y == yl r \/ y == yh r)%Q.
Definition subrect (s r : rect) : Prop := (xl r <= xl s /\ xh s <= xh r /\ yl r <= yl s /\ yh s <= yh r)%Q.
(* each of the four topologies is found on the rim *)
Definition four_kinds (T : Q -> Q -> Z) (r : rect) : Prop := forall b, 0 <= b < 4 -> exists x y, rim r x y /\ Z.testbit (T x y) b = true.
(* sides at most f^k of the sides of [r] *)
Definition shrunk (f : Q) (k : nat) (s r : rect) : Prop := (xh s - xl s <= Qpower f (Z.of_nat k) * (xh r - xl r))%Q /\ (yh s - yl s <= Qpower f (Z.of_nat k) * (yh r - yl r))%Q.
(* one quadrant of the plane around (x0, y0) for each topology *)
Definition qlt (a b : Q) : bool := if Qlt_le_dec a b then true else false.
Definition cross (a b c d : Z) (x0 y0 x y : Q) : Z := if qlt y y0 then (if qlt x x0 then a else b) else if qlt x x0 then c else d.
(* left and lower sides do not belong to the rectangle, so that (x0, y0) is in one quadrant only *)
Definition holds (r : rect) (x0 y0 : Q) : Prop := (xl r < x0 /\ x0 <= xh r /\ yl r < y0 /\ y0 <= yh r)%Q.

(** * division *)
Lemma half_bounds u : (35 # 100 <= 1 - half u)%Q /\ (half u <= 65 # 100)%Q /\ (1 # 2 <= half u)%Q.
Proof. destruct u; cbn [half]; repeat split; lra. Qed.
Lemma lt4 i : (i < 4)%nat -> i = 0%nat \/ i = 1%nat \/ i = 2%nat \/ i = 3%nat.
Proof. lia. Qed.
Ltac kid := cbn [child fst snd Nat.odd Nat.even negb Nat.leb xl xh yl yh] in *.
Lemma mid_bounds m a b : (1 # 2 <= m)%Q -> (m <= 65 # 100)%Q -> (a < b)%Q -> (a < a + m * (b - a))%Q /\ (a + m * (b - a) < b)%Q /\ (m * (b - a) <= (65 # 100) * (b - a))%Q /\ ((1 - m) * (b - a) <= (65 # 100) * (b - a))%Q.
Proof. intros. repeat split; nra. Qed.
Lemma child_ok r i u : proper r -> (i < 4)%nat -> proper (child r (i, u)) /\ subrect (child r (i, u)) r /\ shrunk (65 # 100) 1 (child r (i, u)) r.
Proof.
  intros (X & Y) I. destruct (half_bounds u) as (_ & H2 & H1). destruct (mid_bounds _ _ _ H1 H2 X) as (A & B & C & D). destruct (mid_bounds _ _ _ H1 H2 Y) as (A' & B' & C' & D').
  unfold proper, subrect, shrunk. change (Qpower (65 # 100) (Z.of_nat 1)) with (65 # 100)%Q. destruct (lt4 i I) as [-> |[-> |[-> | ->]]]; kid; repeat split; lra.
Qed.
Theorem C58_tile : forall r u x y, proper r ->
  (inside r x y <-> exists i, (i < 4)%nat /\ inside (child r (i, u)) x y) /\
  (forall i i', (i < 4)%nat -> (i' < 4)%nat -> interior (child r (i, u)) x y -> interior (child r (i', u)) x y -> i = i').
Proof.
  intros r u x y (X & Y). destruct (half_bounds u) as (_ & H2 & H1). destruct (mid_bounds _ _ _ H1 H2 X) as (A & B & _). destruct (mid_bounds _ _ _ H1 H2 Y) as (A' & B' & _). split; [split|].
  - intros (I1 & I2 & I3 & I4). destruct (Qlt_le_dec x (xl r + half u * (xh r - xl r))) as [L|L], (Qlt_le_dec y (yl r + half u * (yh r - yl r))) as [M|M]; [exists 0%nat|exists 2%nat|exists 1%nat|exists 3%nat]; (split; [lia|]); unfold inside; kid; repeat split; lra.
  - intros (i & I & H). destruct (lt4 i I) as [-> |[-> |[-> | ->]]]; unfold inside in *; kid; repeat split; lra.
  - intros i i' I I'. unfold interior. destruct (lt4 i I) as [-> |[-> |[-> | ->]]], (lt4 i' I') as [-> |[-> |[-> | ->]]]; kid; intros H K; try reflexivity; exfalso; lra.
Qed.
Print Assumptions C58_tile.

Definition digits (qs : list quad) : Prop := Forall (fun q => (fst q < 4)%nat) qs.
Lemma sub_refl r : subrect r r.
Proof. unfold subrect. repeat split; apply Qle_refl. Qed.
Lemma sub_trans a b c : subrect a b -> subrect b c -> subrect a c.
Proof. unfold subrect. intros (A & B & C & D) (E & F & G & H). repeat split; eapply Qle_trans; eassumption. Qed.
Lemma pow_pos f n : (0 < f)%Q -> (0 < Qpower f (Z.of_nat n))%Q.
Proof.
  intros F. induction n as [|n IH]; [reflexivity|]. rewrite Nat2Z.inj_succ. unfold Z.succ. rewrite Qpower_plus by lra. change (Qpower f 1) with f. nra.
Qed.
Lemma shrunk_trans f m n a b c : (0 < f)%Q -> shrunk f m a b -> shrunk f n b c -> shrunk f (m + n) a c.
Proof.
  intros F (A & B) (C & D). unfold shrunk. rewrite Nat2Z.inj_add, Qpower_plus by lra. assert (P := pow_pos f m F). revert A B C D P. generalize (Qpower f (Z.of_nat m)) (Qpower f (Z.of_nat n)). intros p q A B C D P.
  assert (E : forall u v w, (u <= p * v)%Q -> (v <= q * w)%Q -> (u <= p * q * w)%Q).
  { intros u v w U V. apply Qle_trans with (p * v)%Q; [exact U|]. rewrite <- Qmult_assoc, (Qmult_comm p v), (Qmult_comm p (q * w)). apply Qmult_le_compat_r; [exact V|lra]. }
  split; eapply E; eassumption.
Qed.
Lemma limits_ok qs : forall r, proper r -> digits qs -> proper (limits r qs) /\ subrect (limits r qs) r /\ shrunk (65 # 100) (length qs) (limits r qs) r.
Proof.
  induction qs as [|(i, u) qs IH]; intros r P D.
  - split; [exact P|]. split; [apply sub_refl|]. unfold shrunk, limits. cbn [fold_left length]. change (Qpower (65 # 100) (Z.of_nat 0)) with 1%Q. split; lra.
  - inversion D as [|q l Q D' E]; subst. cbn [fst] in Q. destruct (child_ok r i u P Q) as (A & B & C). destruct (IH (child r (i, u)) A D') as (A' & B' & C'). change (limits r ((i, u) :: qs)) with (limits (child r (i, u)) qs).
    split; [exact A'|]. split; [exact (sub_trans _ _ _ B' B)|]. cbn [length]. replace (S (length qs)) with (length qs + 1)%nat by lia. apply (shrunk_trans _ _ _ _ (child r (i, u)) _); [reflexivity|exact C'|exact C].
Qed.
Theorem C58_shrink : forall r qs, proper r -> digits qs -> proper (limits r qs) /\ subrect (limits r qs) r /\ shrunk (65 # 100) (length qs) (limits r qs) r.
Proof. intros r qs. apply limits_ok. Qed.
Print Assumptions C58_shrink.
Lemma limits_snoc r base q : limits r (base ++ [q]) = child (limits r base) q.
Proof. unfold limits. rewrite fold_left_app. reflexivity. Qed.
Lemma center_in r qs : proper r -> digits qs -> interior (limits r qs) (fst (center r qs)) (snd (center r qs)).
Proof.
  intros P D. destruct (limits_ok qs r P D) as ((X & Y) & _). unfold center, interior. cbn [fst snd]. destruct (half_bounds (snd (last qs (0%nat, false)))) as (_ & H2 & H1).
  destruct (mid_bounds _ _ _ H1 H2 X) as (A & B & _). destruct (mid_bounds _ _ _ H1 H2 Y) as (A' & B' & _). repeat split; assumption.
Qed.

(** * samples *)
Lemma in_linspace a b n x : In x (linspace a b n) -> exists t, (0 <= t /\ t <= 1 /\ x == a + t * (b - a))%Q.
Proof.
  unfold linspace. destruct n as [|[|n]]; [intros []|intros [<-|[]]; exists 0%Q; repeat split; lra|]. intros H. apply in_map_iff in H. destruct H as (k & <- & K). apply in_seq in K.
  assert (N : (0 < inject_Z (Z.of_nat (S (S n) - 1)))%Q) by (change 0%Q with (inject_Z 0); rewrite <- Zlt_Qlt; lia).
  exists (inject_Z (Z.of_nat k) / inject_Z (Z.of_nat (S (S n) - 1)))%Q. split; [apply Qle_shift_div_l; [exact N|]; rewrite Qmult_0_l; change 0%Q with (inject_Z 0); rewrite <- Zle_Qle; lia|].
  split; [apply Qle_shift_div_r; [exact N|]; rewrite Qmult_1_l, <- Zle_Qle; lia|]. field. lra.
Qed.
Lemma between a b t x : (0 <= t)%Q -> (t <= 1)%Q -> (x == a + t * (b - a))%Q -> (a <= x /\ x <= b)%Q \/ (b <= x /\ x <= a)%Q.
Proof. intros. destruct (Qlt_le_dec b a); [right|left]; split; nra. Qed.
Lemma in_hor n a b y p : In p (hor n a b y) -> exists x, p = (x, y) /\ ((a <= x /\ x <= b)%Q \/ (b <= x /\ x <= a)%Q).
Proof. unfold hor. intros H. apply in_map_iff in H. destruct H as (x & <- & I). destruct (in_linspace _ _ _ _ I) as (t & A & B & C). exists x. split; [reflexivity|]. exact (between a b t x A B C). Qed.
Lemma in_ver n a b x p : In p (ver n x a b) -> exists y, p = (x, y) /\ ((a <= y /\ y <= b)%Q \/ (b <= y /\ y <= a)%Q).
Proof. unfold ver. intros H. apply in_map_iff in H. destruct H as (y & <- & I). destruct (in_linspace _ _ _ _ I) as (t & A & B & C). exists y. split; [reflexivity|]. exact (between a b t y A B C). Qed.
Lemma in_init {A} (l : list A) x : In x (init l) -> In x l.
Proof. unfold init. induction l as [|a [|b l] IH]; [intros []|intros []|]. intros [H|H]; [left; exact H|right; apply IH, H]. Qed.
Lemma in_back {A} (l : list A) x : In x (back l) -> In x l.
Proof. unfold back. rewrite <- in_rev. destruct l; [intros []|]. intros H. right. exact H. Qed.
Lemma quad_rim nx ny r u i x y : proper r -> (i < 4)%nat -> In (x, y) (quad_pts nx ny (child r (0%nat, u)) (child r (3%nat, u)) i) -> rim (child r (i, u)) x y.
Proof.
  intros (X & Y) I H. destruct (half_bounds u) as (_ & H2 & H1). destruct (mid_bounds _ _ _ H1 H2 X) as (A & B & _). destruct (mid_bounds _ _ _ H1 H2 Y) as (A' & B' & _). unfold rim, inside.
  destruct (lt4 i I) as [-> |[-> |[-> | ->]]]; unfold quad_pts in H; rewrite !in_app_iff in H; cbn [seg] in H; kid;
    destruct H as [H|[H|[H|H]]]; (apply in_init in H || apply in_back in H); (apply in_hor in H || apply in_ver in H); destruct H as (z & E & H); injection E as -> ->; (split; [lra|]);
    first [left; reflexivity|right; left; reflexivity|right; right; left; reflexivity|right; right; right; reflexivity].
Qed.
(* corners *)
Lemma last_lin a b n : (2 <= n)%nat -> exists l z, linspace a b n = (a + 0 * ((b - a) / inject_Z (Z.of_nat (n - 1))))%Q :: l ++ [z] /\ (z == b)%Q.
Proof.
  intros N. destruct n as [|[|n]]; [lia|lia|]. unfold linspace. set (f := fun k => (a + inject_Z (Z.of_nat k) * ((b - a) / inject_Z (Z.of_nat (S (S n) - 1))))%Q).
  exists (map f (seq 1 n)), (f (S n)). split.
  - replace (S (S n)) with (1 + n + 1)%nat at 1 by lia. rewrite seq_app, map_app, seq_app, map_app. cbn [seq map app Nat.add]. reflexivity.
  - unfold f. replace (S (S n) - 1)%nat with (S n) by lia. field. intros E. assert (N' : (0 < inject_Z (Z.of_nat (S n)))%Q) by (change 0%Q with (inject_Z 0); rewrite <- Zlt_Qlt; lia). rewrite E in N'. discriminate N'.
Qed.
Lemma init_first {A} (a : A) l z : In a (init (a :: l ++ [z])).
Proof. unfold init. destruct l; cbn; left; reflexivity. Qed.
Lemma back_first {A} (a : A) l z : In z (back (a :: l ++ [z])).
Proof. unfold back. cbn [tl]. rewrite rev_app_distr. left. reflexivity. Qed.
Lemma hor_ends n a b y : (2 <= n)%nat -> (exists x, (x == a)%Q /\ In (x, y) (init (hor n a b y))) /\ (exists x, (x == b)%Q /\ In (x, y) (back (hor n a b y))).
Proof.
  intros N. destruct (last_lin a b n N) as (l & z & E & Z0). unfold hor. rewrite E. cbn [map]. rewrite map_app. cbn [map]. split; eexists; (split; [|first [apply init_first|apply back_first]]); [ring|exact Z0].
Qed.
Lemma ver_ends n a b x : (2 <= n)%nat -> (exists y, (y == a)%Q /\ In (x, y) (init (ver n x a b))) /\ (exists y, (y == b)%Q /\ In (x, y) (back (ver n x a b))).
Proof.
  intros N. destruct (last_lin a b n N) as (l & z & E & Z0). unfold ver. rewrite E. cbn [map]. rewrite map_app. cbn [map]. split; eexists; (split; [|first [apply init_first|apply back_first]]); [ring|exact Z0].
Qed.
Definition near_in (l : list (Q * Q)) (x y : Q) : Prop := exists x' y', (x' == x)%Q /\ (y' == y)%Q /\ In (x', y') l.
Lemma near_hor_i n a b y l : (2 <= n)%nat -> (forall p, In p (init (hor n a b y)) -> In p l) -> near_in l a y.
Proof. intros N H. destruct (hor_ends n a b y N) as ((x & E & I) & _). exists x, y. split; [exact E|]. split; [reflexivity|]. apply H, I. Qed.
Lemma near_hor_b n a b y l : (2 <= n)%nat -> (forall p, In p (back (hor n a b y)) -> In p l) -> near_in l b y.
Proof. intros N H. destruct (hor_ends n a b y N) as (_ & (x & E & I)). exists x, y. split; [exact E|]. split; [reflexivity|]. apply H, I. Qed.
Lemma near_ver_i n a b x l : (2 <= n)%nat -> (forall p, In p (init (ver n x a b)) -> In p l) -> near_in l x a.
Proof. intros N H. destruct (ver_ends n a b x N) as ((y & E & I) & _). exists x, y. split; [reflexivity|]. split; [exact E|]. apply H, I. Qed.
Lemma near_ver_b n a b x l : (2 <= n)%nat -> (forall p, In p (back (ver n x a b)) -> In p l) -> near_in l x b.
Proof. intros N H. destruct (ver_ends n a b x N) as (_ & (y & E & I)). exists x, y. split; [reflexivity|]. split; [exact E|]. apply H, I. Qed.
Lemma corners nx ny r u i : (2 <= nx)%nat -> (2 <= ny)%nat -> (i < 4)%nat -> let c := child r (i, u) in let l := quad_pts nx ny (child r (0%nat, u)) (child r (3%nat, u)) i in
  near_in l (xl c) (yl c) /\ near_in l (xh c) (yl c) /\ near_in l (xl c) (yh c) /\ near_in l (xh c) (yh c).
Proof.
  intros Nx Ny I. cbv zeta. destruct (lt4 i I) as [-> |[-> |[-> | ->]]]; unfold quad_pts; cbn [seg]; kid.
  - split; [eapply (near_hor_i nx); [exact Nx|]|split; [eapply (near_ver_i ny); [exact Ny|]|split; [eapply (near_ver_i ny); [exact Ny|]|eapply (near_hor_i nx); [exact Nx|]]]].
    + intros p Hp. rewrite !in_app_iff. left. exact Hp.
    + intros p Hp. rewrite !in_app_iff. right; left. exact Hp.
    + intros p Hp. rewrite !in_app_iff. right; right; right. exact Hp.
    + intros p Hp. rewrite !in_app_iff. right; right; left. exact Hp.
  - split; [eapply (near_hor_i nx); [exact Nx|]|split; [eapply (near_ver_i ny); [exact Ny|]|split; [eapply (near_ver_b ny); [exact Ny|]|eapply (near_hor_i nx); [exact Nx|]]]].
    + intros p Hp. rewrite !in_app_iff. left. exact Hp.
    + intros p Hp. rewrite !in_app_iff. right; left. exact Hp.
    + intros p Hp. rewrite !in_app_iff. right; right; right. exact Hp.
    + intros p Hp. rewrite !in_app_iff. right; right; left. exact Hp.
  - split; [eapply (near_hor_b nx); [exact Nx|]|split; [eapply (near_ver_i ny); [exact Ny|]|split; [eapply (near_ver_i ny); [exact Ny|]|eapply (near_hor_i nx); [exact Nx|]]]].
    + intros p Hp. rewrite !in_app_iff. left. exact Hp.
    + intros p Hp. rewrite !in_app_iff. right; left. exact Hp.
    + intros p Hp. rewrite !in_app_iff. right; right; right. exact Hp.
    + intros p Hp. rewrite !in_app_iff. right; right; left. exact Hp.
  - split; [eapply (near_hor_b nx); [exact Nx|]|split; [eapply (near_ver_i ny); [exact Ny|]|split; [eapply (near_ver_b ny); [exact Ny|]|eapply (near_hor_i nx); [exact Nx|]]]].
    + intros p Hp. rewrite !in_app_iff. left. exact Hp.
    + intros p Hp. rewrite !in_app_iff. right; left. exact Hp.
    + intros p Hp. rewrite !in_app_iff. right; right; right. exact Hp.
    + intros p Hp. rewrite !in_app_iff. right; right; left. exact Hp.
Qed.
(** The samples of a quadrant are on its rim, and its corners are among them. *)
Theorem C58_samples : forall nx ny ext base u i, proper ext -> digits base -> (i < 4)%nat ->
  let r := limits ext (base ++ [(i, u)]) in let l := quad_pts nx ny (lo_of ext base u) (hi_of ext base u) i in
  (forall x y, In (x, y) l -> rim r x y) /\
  ((2 <= nx)%nat -> (2 <= ny)%nat -> forall x y, (x = xl r \/ x = xh r) -> (y = yl r \/ y = yh r) -> exists x' y', (x' == x)%Q /\ (y' == y)%Q /\ In (x', y') l).
Proof.
  intros nx ny ext base u i P D I. cbv zeta. unfold lo_of, hi_of. rewrite !limits_snoc. destruct (limits_ok base ext P D) as (P' & _). split.
  - intros x y. apply quad_rim; assumption.
  - intros Nx Ny x y Hx Hy. destruct (corners nx ny (limits ext base) u i Nx Ny I) as (A & B & C & E). destruct Hx as [-> | ->], Hy as [-> | ->]; assumption.
Qed.
Print Assumptions C58_samples.

(** * the check *)
Lemma lor_bit l b : Z.testbit (fold_right Z.lor 0 l) b = true <-> exists v, In v l /\ Z.testbit v b = true.
Proof.
  induction l as [|a l IH]; cbn [fold_right]; [rewrite Z.bits_0; split; [discriminate|intros (v & [] & _)]|]. rewrite Z.lor_spec, orb_true_iff, IH. split.
  - intros [H|(v & I & H)]; [exists a; split; [left; reflexivity|exact H]|exists v; split; [right; exact I|exact H]].
  - intros (v & [<-|I] & H); [left; exact H|right; exists v; auto].
Qed.
Lemma fifteen b : 0 <= b -> Z.testbit 15 b = true <-> b < 4.
Proof. intros B. change 15 with (Z.ones 4). rewrite Z.testbit_ones_nonneg by lia. lia. Qed.
Lemma check_spec T l : check T l = true <-> forall b, 0 <= b -> (b < 4 <-> exists p, In p l /\ Z.testbit (T (fst p) (snd p)) b = true).
Proof.
  unfold check. rewrite Z.eqb_eq. assert (Q : forall b, Z.testbit (fold_right Z.lor 0 (map (fun p => T (fst p) (snd p)) l)) b = true <-> exists p, In p l /\ Z.testbit (T (fst p) (snd p)) b = true).
  { intros b. rewrite lor_bit. split; [intros (v & I & H); apply in_map_iff in I; destruct I as (p & <- & I); exists p; auto|intros (p & I & H); eexists; split; [apply in_map_iff; exists p; split; [reflexivity|exact I]|exact H]]. }
  split.
  - intros E b B. rewrite <- Q, E. rewrite fifteen by exact B. reflexivity.
  - intros H. apply Z.bits_inj'. intros b B. specialize (H b B). specialize (Q b). assert (F := fifteen b B). destruct (Z.testbit (fold_right _ _ _) b), (Z.testbit 15 b); try reflexivity; [symmetry; apply F, H, Q; reflexivity|apply Q, H, F; reflexivity].
Qed.

(** * soundness *)
Section SOUND.
Variables (T : Q -> Q -> Z) (nx ny : nat) (ext : rect) (mn : nat).
Definition passed (base : list quad) (q : quad) : Prop := check T (quad_pts nx ny (lo_of ext base (snd q)) (hi_of ext base (snd q)) (fst q)) = true.
(* each digit passed *)
Definition all_passed (base e : list quad) : Prop := forall e1 q e2, e = e1 ++ q :: e2 -> (fst q < 4)%nat /\ passed (base ++ e1) q.
Lemma in_level rec base u qs : In qs (level T nx ny ext rec base u) <-> exists i, (i < 4)%nat /\ passed base (i, u) /\ In qs (rec (base ++ [(i, u)])).
Proof.
  unfold level. rewrite in_flat_map. unfold passed. cbn [fst snd]. split.
  - intros (i & I & H). exists i. split; [cbn in I; lia|]. destruct (check _ _); [split; [reflexivity|exact H]|destruct H].
  - intros (i & I & P & H). exists i. split; [cbn; lia|]. rewrite P. exact H.
Qed.
Lemma give_up_spec base qs : In qs (give_up mn base) -> qs = base /\ (mn < length base)%nat.
Proof. unfold give_up. destruct (Nat.ltb mn (length base)) eqn:E; [|intros []]. intros [<-|[]]. split; [reflexivity|lia]. Qed.
Lemma bisect_sound rem : forall base u qs, In qs (bisect T nx ny ext mn rem base u) -> exists e, qs = base ++ e /\ (length e <= rem)%nat /\ (length e = rem \/ (mn < length qs)%nat) /\ all_passed base e.
Proof.
  induction rem as [|n IH]; intros base u qs H.
  - destruct H as [<-|[]]. exists []. split; [symmetry; apply app_nil_r|]. split; [cbn; lia|]. split; [left; reflexivity|]. intros [|q1 e1] q e2 E; discriminate.
  - assert (L : forall v, In qs (level T nx ny ext (fun b => bisect T nx ny ext mn n b false) base v) -> exists e, qs = base ++ e /\ (length e <= S n)%nat /\ (length e = S n \/ (mn < length qs)%nat) /\ all_passed base e).
    { intros v Hv. apply in_level in Hv. destruct Hv as (i & I & P & Hv). destruct (IH _ _ _ Hv) as (e & E & Le & D & A). exists ((i, v) :: e). split; [rewrite E, <- app_assoc; reflexivity|]. cbn [length]. split; [lia|]. split; [lia|].
      intros [|q0 e1] q e2 Eq; cbn [app] in Eq; injection Eq as Eq1 Eq2.
      - subst q. rewrite app_nil_r. split; [exact I|exact P].
      - subst q0. destruct (A e1 q e2 Eq2) as (A1 & A2). split; [exact A1|]. rewrite <- app_assoc in A2. exact A2. }
    assert (G : In qs (give_up mn base) -> exists e, qs = base ++ e /\ (length e <= S n)%nat /\ (length e = S n \/ (mn < length qs)%nat) /\ all_passed base e).
    { intros Hg. apply give_up_spec in Hg. destruct Hg as (-> & M). exists []. split; [symmetry; apply app_nil_r|]. split; [cbn; lia|]. split; [right; exact M|]. intros [|q1 e1] q e2 E; discriminate. }
    cbn [bisect] in H. destruct (level _ _ _ _ _ base u) as [|q0 l] eqn:E.
    + destruct u; [apply G, H|]. destruct (check _ _); [|destruct H]. destruct (level _ _ _ _ _ base true) as [|q1 l'] eqn:E'; [apply G, H|]. apply (L true). rewrite E'. exact H.
    + apply (L u). rewrite E. exact H.
Qed.
Lemma passed_kinds base q : proper ext -> digits base -> (fst q < 4)%nat -> passed base q -> four_kinds T (limits ext (base ++ [q])).
Proof.
  intros P D Q H b B. destruct q as (i, u). cbn [fst] in Q. unfold passed in H. cbn [fst snd] in H. rewrite check_spec in H. destruct (proj1 (H b ltac:(lia)) ltac:(lia)) as ((x, y) & I & E). cbn [fst snd] in E. exists x, y. split; [|exact E].
  destruct (C58_samples nx ny ext base u i P D Q) as (S & _). apply S, I.
Qed.
Lemma all_digits base e : digits base -> all_passed base e -> digits (base ++ e).
Proof.
  intros D A. apply Forall_app. split; [exact D|]. apply Forall_forall. intros q I. apply in_split in I. destruct I as (e1 & e2 & E). apply (A e1 q e2 E).
Qed.
End SOUND.

(** What is found: each point is inside a small rectangle on whose sides all four topologies occur. *)
Theorem C58_result : forall T nx ny ext mn mx x y, proper ext -> (0 < mx)%nat -> In (x, y) (get_sep_pts T nx ny ext mn mx) ->
  exists r k, (0 < k <= mx)%nat /\ (k = mx \/ (mn < k)%nat) /\ subrect r ext /\ shrunk (65 # 100) k r ext /\ interior r x y /\ four_kinds T r.
Proof.
  intros T nx ny ext mn mx x y P M H. unfold get_sep_pts in H. apply in_map_iff in H. destruct H as (qs & C & H). destruct (bisect_sound _ _ _ _ _ _ _ _ _ H) as (e & E & L & D & A). cbn [app] in E. subst e.
  assert (Dg : digits qs) by exact (all_digits T (nx / 2) (ny / 2) ext [] qs (Forall_nil _) A). destruct (limits_ok qs ext P Dg) as (_ & S1 & S2). exists (limits ext qs), (length qs).
  assert (K : (0 < length qs)%nat) by (destruct qs; [cbn in D; lia|cbn; lia]). split; [lia|]. split; [exact D|]. split; [exact S1|]. split; [exact S2|].
  assert (I := center_in ext qs P Dg). rewrite C in I. split; [exact I|]. assert (Ne : qs <> []) by (intros Ez; rewrite Ez in K; cbn in K; lia). destruct (exists_last Ne) as (qs' & q & E). destruct (A qs' q [] E) as (A1 & A2). cbn [app] in A2. rewrite E.
  apply (passed_kinds T (nx / 2) (ny / 2)); [exact P| |exact A1|exact A2]. rewrite E in Dg. apply Forall_app in Dg. apply Dg.
Qed.
Print Assumptions C58_result.

(** Different points are from rectangles that do not overlap. *)
Definition apart (r s : rect) : Prop := forall x y, interior r x y -> interior s x y -> False.
Lemma apart_sub r s r' s' : subrect r' r -> subrect s' s -> apart r s -> apart r' s'.
Proof. unfold subrect, apart, interior. intros A B H x y I J. apply (H x y); repeat split; lra. Qed.
Inductive pairwise {A} (R : A -> A -> Prop) : list A -> Prop := pw_nil : pairwise R [] | pw_cons a l : (forall b, In b l -> R a b) -> pairwise R l -> pairwise R (a :: l).
Lemma pw_app {A} (R : A -> A -> Prop) l m : pairwise R l -> pairwise R m -> (forall a b, In a l -> In b m -> R a b) -> pairwise R (l ++ m).
Proof.
  intros L. induction L as [|a l H L IH]; intros M X; [exact M|]. cbn. constructor; [|apply IH; [exact M|]; intros a' b I; apply X; right; exact I]. intros b I. apply in_app_iff in I. destruct I as [I|I]; [apply H, I|apply X; [left; reflexivity|exact I]].
Qed.
Lemma bisect_apart T nx ny ext mn rem : proper ext -> forall base u, digits base -> pairwise (fun q q' => apart (limits ext q) (limits ext q')) (bisect T nx ny ext mn rem base u).
Proof.
  intros P. induction rem as [|n IH]; intros base u D; [cbn [bisect]; repeat constructor; intros b []|].
  assert (L : forall v, pairwise (fun q q' => apart (limits ext q) (limits ext q')) (level T nx ny ext (fun b => bisect T nx ny ext mn n b false) base v)).
  { intros v. unfold level.
    assert (Sub : forall i qs, (i < 4)%nat -> In qs (bisect T nx ny ext mn n (base ++ [(i, v)]) false) -> subrect (limits ext qs) (child (limits ext base) (i, v))).
    { intros i qs I H. destruct (bisect_sound _ _ _ _ _ _ _ _ _ H) as (e & E & _ & _ & A). rewrite <- limits_snoc, E. unfold limits. rewrite fold_left_app with (l' := e). fold (limits ext (base ++ [(i, v)])). fold (limits (limits ext (base ++ [(i, v)])) e).
      assert (Dg : digits (base ++ [(i, v)])) by (apply Forall_app; split; [exact D|constructor; [exact I|constructor]]). apply limits_ok; [apply limits_ok; assumption|]. assert (Q := all_digits _ _ _ _ _ e Dg A). apply Forall_app in Q. apply Q. }
    assert (G : forall l, (forall i, In i l -> (i < 4)%nat) -> NoDup l -> pairwise (fun q q' => apart (limits ext q) (limits ext q')) (flat_map (fun i => if check T (quad_pts nx ny (lo_of ext base v) (hi_of ext base v) i) then bisect T nx ny ext mn n (base ++ [(i, v)]) false else []) l)).
    { intros l. induction l as [|i l IHl]; intros I N; [constructor|]. inversion N as [|i' l' N1 N2 E]; subst. cbn [flat_map]. apply pw_app.
      - destruct (check _ _); [|constructor]. apply IH. apply Forall_app. split; [exact D|]. constructor; [apply I; left; reflexivity|constructor].
      - apply IHl; [intros j J; apply I; right; exact J|exact N2].
      - intros a b Ha Hb. destruct (check _ _) in Ha; [|destruct Ha]. apply in_flat_map in Hb. destruct Hb as (j & J & Hb). destruct (check _ _) in Hb; [|destruct Hb].
        assert (Ii : (i < 4)%nat) by (apply I; left; reflexivity). assert (Ij : (j < 4)%nat) by (apply I; right; exact J).
        apply (apart_sub _ _ _ _ (Sub i a Ii Ha) (Sub j b Ij Hb)). intros x y X Y. assert (i = j) by (destruct (limits_ok base ext P D) as (P' & _); exact (proj2 (C58_tile _ v x y P') i j Ii Ij X Y)). subst j. contradiction. }
    apply G; [intros i I; cbn in I; lia|]. repeat constructor; cbn; lia. }
  assert (G : pairwise (fun q q' => apart (limits ext q) (limits ext q')) (give_up mn base)) by (unfold give_up; destruct (Nat.ltb _ _); repeat constructor; intros b []).
  cbn [bisect]. assert (L1 := L u). destruct (level _ _ _ _ _ base u) as [|q0 l]; [|exact L1]. destruct u; [exact G|]. destruct (check _ _); [|constructor]. assert (L2 := L true). destruct (level _ _ _ _ _ base true); [exact G|exact L2].
Qed.
Theorem C58_distinct : forall T nx ny ext mn mx, proper ext -> pairwise (fun p q => ~ (fst p == fst q /\ snd p == snd q)%Q) (get_sep_pts T nx ny ext mn mx).
Proof.
  intros T nx ny ext mn mx P. unfold get_sep_pts. set (u := Nat.ltb _ _). assert (A := bisect_apart T (nx / 2) (ny / 2) ext mn mx P [] u (Forall_nil _)).
  assert (S : forall qs, In qs (bisect T (nx / 2) (ny / 2) ext mn mx [] u) -> digits qs).
  { intros qs H. destruct (bisect_sound _ _ _ _ _ _ _ _ _ H) as (e & E & _ & _ & B). subst qs. exact (all_digits T (nx / 2) (ny / 2) ext [] e (Forall_nil _) B). }
  revert S. induction A as [|a l H A IH]; intros S; cbn [map]; constructor; [|apply IH; intros qs I; apply S; right; exact I].
  intros p I. apply in_map_iff in I. destruct I as (b & <- & I). intros (E & F). assert (Ia := center_in ext a P (S a (or_introl eq_refl))). assert (Ib := center_in ext b P (S b (or_intror I))).
  apply (H b I (fst (center ext a)) (snd (center ext a)) Ia). unfold interior in *. rewrite E, F. exact Ib.
Qed.
Print Assumptions C58_distinct.

(** * completeness *)
Definition respects (T : Q -> Q -> Z) : Prop := forall x x' y y', (x == x')%Q -> (y == y')%Q -> T x y = T x' y'.
Lemma holds_child r u x0 y0 : proper r -> holds r x0 y0 -> exists i, (i < 4)%nat /\ holds (child r (i, u)) x0 y0 /\ forall j, (j < 4)%nat -> j <> i -> ~ holds (child r (j, u)) x0 y0.
Proof.
  intros (X & Y) (A & B & C & D). unfold holds. set (xm := (xl r + half u * (xh r - xl r))%Q). set (ym := (yl r + half u * (yh r - yl r))%Q).
  destruct (Qlt_le_dec xm x0) as [L|L], (Qlt_le_dec ym y0) as [M|M]; [exists 3%nat|exists 1%nat|exists 2%nat|exists 0%nat]; (split; [lia|]); (split; [kid; fold xm ym; repeat split; lra|]);
    intros j J N; destruct (lt4 j J) as [-> |[-> |[-> | ->]]]; try (exfalso; lia); kid; fold xm ym; intros Hj; lra.
Qed.
Lemma corner_check T nx ny r u i : (2 <= nx)%nat -> (2 <= ny)%nat -> proper r -> (i < 4)%nat -> respects T -> (forall x y, inside r x y -> 0 <= T x y < 16) ->
  (let c := child r (i, u) in Z.lor (Z.lor (T (xl c) (yl c)) (T (xh c) (yl c))) (Z.lor (T (xl c) (yh c)) (T (xh c) (yh c))) = 15) ->
  check T (quad_pts nx ny (child r (0%nat, u)) (child r (3%nat, u)) i) = true.
Proof.
  intros Nx Ny P I R V. cbv zeta. intros F. apply check_spec. intros b B. rewrite <- fifteen by exact B. destruct (corners nx ny r u i Nx Ny I) as (C1 & C2 & C3 & C4). split.
  - intros H. rewrite <- F, !Z.lor_spec, !orb_true_iff in H.
    assert (G : forall x y, near_in (quad_pts nx ny (child r (0%nat, u)) (child r (3%nat, u)) i) x y -> Z.testbit (T x y) b = true -> exists p, In p (quad_pts nx ny (child r (0%nat, u)) (child r (3%nat, u)) i) /\ Z.testbit (T (fst p) (snd p)) b = true).
    { intros x y (x' & y' & E & E' & In') Tb. exists (x', y'). split; [exact In'|]. cbn [fst snd]. rewrite (R x' x y' y E E'). exact Tb. }
    destruct H as [[H|H]|[H|H]]; [exact (G _ _ C1 H)|exact (G _ _ C2 H)|exact (G _ _ C3 H)|exact (G _ _ C4 H)].
  - intros ((x, y) & Hp & Tb). cbn [fst snd] in Tb. apply fifteen; [exact B|]. destruct (quad_rim nx ny r u i x y P I Hp) as (Ins & _). destruct (child_ok r i u P I) as (_ & Sb & _).
    assert (Ir : inside r x y) by (unfold inside, subrect in *; repeat split; lra). specialize (V x y Ir). destruct (Z_lt_dec b 4) as [|G]; [assumption|exfalso]. 
    destruct (Z.eq_dec (T x y) 0) as [E|E]; [rewrite E, Z.bits_0 in Tb; discriminate|]. rewrite Z.bits_above_log2 in Tb; [discriminate|lia|]. assert (Z.log2 (T x y) < 4) by (apply Z.log2_lt_pow2; [lia|change (2 ^ 4) with 16; lia]). lia.
Qed.
(** If every rectangle around (x0, y0) has all four topologies at its corners, a rectangle around it is found. *)
Lemma bisect_complete T nx ny ext mn x0 y0 rem : (2 <= nx)%nat -> (2 <= ny)%nat -> proper ext -> respects T -> (forall x y, inside ext x y -> 0 <= T x y < 16) ->
  (forall c, proper c -> subrect c ext -> holds c x0 y0 -> Z.lor (Z.lor (T (xl c) (yl c)) (T (xh c) (yl c))) (Z.lor (T (xl c) (yh c)) (T (xh c) (yh c))) = 15) ->
  forall base u, digits base -> holds (limits ext base) x0 y0 -> exists qs, In qs (bisect T nx ny ext mn rem base u) /\ digits qs /\ length qs = (length base + rem)%nat /\ holds (limits ext qs) x0 y0.
Proof.
  intros Nx Ny P R V F. induction rem as [|n IH]; intros base u D Hb.
  - exists base. split; [left; reflexivity|]. split; [exact D|]. split; [lia|exact Hb].
  - destruct (limits_ok base ext P D) as (P' & Sb & _). destruct (holds_child _ u x0 y0 P' Hb) as (i & I & Hi & _). destruct (child_ok _ i u P' I) as (Pc & Sc & _).
    assert (Dg : digits (base ++ [(i, u)])) by (apply Forall_app; split; [exact D|constructor; [exact I|constructor]]).
    destruct (IH (base ++ [(i, u)]) false Dg) as (qs & Hq & Dq & Lq & Hh); [rewrite limits_snoc; exact Hi|]. exists qs.
    assert (L : In qs (level T nx ny ext (fun b => bisect T nx ny ext mn n b false) base u)).
    { apply in_level. exists i. split; [exact I|]. split; [|exact Hq]. unfold passed, lo_of, hi_of. cbn [fst snd]. rewrite !limits_snoc. apply corner_check; try assumption.
      - intros x y Hxy. apply V. unfold inside, subrect in *. repeat split; lra.
      - cbv zeta. apply F; [exact Pc|exact (sub_trans _ _ _ Sc Sb)|exact Hi]. }
    split; [|split; [exact Dq|split; [rewrite Lq, app_length; cbn [length]; lia|exact Hh]]].
    cbn [bisect]. destruct (level _ _ _ _ _ base u); [destruct L|exact L].
Qed.
Theorem C58_complete : forall T nx ny ext mn mx x0 y0, (4 <= nx)%nat -> (4 <= ny)%nat -> proper ext -> respects T -> (forall x y, inside ext x y -> 0 <= T x y < 16) ->
  (forall c, proper c -> subrect c ext -> holds c x0 y0 -> Z.lor (Z.lor (T (xl c) (yl c)) (T (xh c) (yl c))) (Z.lor (T (xl c) (yh c)) (T (xh c) (yh c))) = 15) -> holds ext x0 y0 ->
  exists x y r, In (x, y) (get_sep_pts T nx ny ext mn mx) /\ shrunk (65 # 100) mx r ext /\ interior r x y /\ holds r x0 y0.
Proof.
  intros T nx ny ext mn mx x0 y0 Nx Ny P R V F H. assert (Nx' : (2 <= nx / 2)%nat) by (apply Nat.div_le_lower_bound; lia). assert (Ny' : (2 <= ny / 2)%nat) by (apply Nat.div_le_lower_bound; lia).
  unfold get_sep_pts. set (u := Nat.ltb _ _). destruct (bisect_complete T (nx / 2) (ny / 2) ext mn x0 y0 mx Nx' Ny' P R V F [] u (Forall_nil _) H) as (qs & I & D & L & Hh). cbn [length Nat.add] in L. exists (fst (center ext qs)), (snd (center ext qs)), (limits ext qs).
  split; [rewrite <- surjective_pairing; apply in_map, I|]. destruct (limits_ok qs ext P D) as (_ & _ & S). rewrite L in S. split; [exact S|]. split; [apply center_in; assumption|exact Hh].
Qed.
Print Assumptions C58_complete.

(** * a single crossing *)
Lemma qlt_true a b : qlt a b = true <-> (a < b)%Q.
Proof. unfold qlt. destruct (Qlt_le_dec a b); split; intros; try reflexivity; try discriminate; try assumption. exfalso. lra. Qed.
Lemma qlt_false a b : qlt a b = false <-> (b <= a)%Q.
Proof. unfold qlt. destruct (Qlt_le_dec a b); split; intros; try reflexivity; try discriminate; try assumption. exfalso. lra. Qed.
Lemma qlt_ext a a' b : (a == a')%Q -> qlt a b = qlt a' b.
Proof. intros E. destruct (qlt a' b) eqn:H; [apply qlt_true in H; apply qlt_true|apply qlt_false in H; apply qlt_false]; lra. Qed.
Lemma cross_respects a b c d x0 y0 : respects (cross a b c d x0 y0).
Proof. intros x x' y y' E F. unfold cross. rewrite (qlt_ext x x' x0 E), (qlt_ext y y' y0 F). reflexivity. Qed.
Lemma cross_corners a b c d x0 y0 r : holds r x0 y0 -> let T := cross a b c d x0 y0 in T (xl r) (yl r) = a /\ T (xh r) (yl r) = b /\ T (xl r) (yh r) = c /\ T (xh r) (yh r) = d.
Proof.
  intros (A & B & C & D). cbv zeta. unfold cross. rewrite (proj2 (qlt_true _ _) A), (proj2 (qlt_false _ _) B), (proj2 (qlt_true _ _) C), (proj2 (qlt_false _ _) D). auto.
Qed.
(* values v and w only *)
Lemma lor_absorb v w l : (forall z, In z l -> z = v \/ z = w) -> Z.lor (fold_right Z.lor 0 l) (Z.lor v w) = Z.lor v w.
Proof.
  induction l as [|a l IH]; intros H; [reflexivity|]. cbn [fold_right]. rewrite <- Z.lor_assoc, IH by (intros z I; apply H; right; exact I). destruct (H a (or_introl eq_refl)) as [-> | ->]; [rewrite Z.lor_assoc, Z.lor_diag; reflexivity|rewrite (Z.lor_comm v w), Z.lor_assoc, Z.lor_diag; reflexivity].
Qed.
Lemma two_kinds T l v w : (forall p, In p l -> T (fst p) (snd p) = v \/ T (fst p) (snd p) = w) -> (exists k, Z.testbit 15 k = true /\ Z.testbit (Z.lor v w) k = false) -> check T l = false.
Proof.
  intros H (k & K1 & K2). unfold check. destruct (_ =? 15) eqn:E; [exfalso|reflexivity]. apply Z.eqb_eq in E. assert (A := lor_absorb v w (map (fun p => T (fst p) (snd p)) l)). rewrite E in A.
  assert (B : Z.lor 15 (Z.lor v w) = Z.lor v w) by (apply A; intros z I; apply in_map_iff in I; destruct I as (p & <- & I); apply H, I). apply (f_equal (fun z => Z.testbit z k)) in B. rewrite Z.lor_spec, K1, K2 in B. discriminate B.
Qed.
(* a neighbouring pair lacks one of the four kinds *)
Definition lacks (v w : Z) : Prop := exists k, Z.testbit 15 k = true /\ Z.testbit (Z.lor v w) k = false.
Lemma cross_out a b c d x0 y0 nx ny r u i : proper r -> (i < 4)%nat -> lacks a b -> lacks c d -> lacks a c -> lacks b d -> ~ holds (child r (i, u)) x0 y0 -> check (cross a b c d x0 y0) (quad_pts nx ny (child r (0%nat, u)) (child r (3%nat, u)) i) = false.
Proof.
  intros P I L1 L2 L3 L4 N.
  assert (In' : forall p, In p (quad_pts nx ny (child r (0%nat, u)) (child r (3%nat, u)) i) -> inside (child r (i, u)) (fst p) (snd p)) by (intros (x, y) H; exact (proj1 (quad_rim nx ny r u i x y P I H))).
  destruct (Qlt_le_dec (xl (child r (i, u))) x0) as [A|A]; [destruct (Qlt_le_dec (xh (child r (i, u))) x0) as [B|B]; [|destruct (Qlt_le_dec (yl (child r (i, u))) y0) as [C|C]; [destruct (Qlt_le_dec (yh (child r (i, u))) y0) as [D|D]|]]|].
  - apply (two_kinds _ _ a c); [|exact L3]. intros p H. specialize (In' p H). unfold inside in In'. unfold cross. rewrite (proj2 (qlt_true (fst p) x0)) by lra. destruct (qlt (snd p) y0); auto.
  - apply (two_kinds _ _ a b); [|exact L1]. intros p H. specialize (In' p H). unfold inside in In'. unfold cross. rewrite (proj2 (qlt_true (snd p) y0)) by lra. destruct (qlt (fst p) x0); auto.
  - exfalso. apply N. unfold holds. repeat split; assumption.
  - apply (two_kinds _ _ c d); [|exact L2]. intros p H. specialize (In' p H). unfold inside in In'. unfold cross. rewrite (proj2 (qlt_false (snd p) y0)) by lra. destruct (qlt (fst p) x0); auto.
  - apply (two_kinds _ _ b d); [|exact L4]. intros p H. specialize (In' p H). unfold inside in In'. unfold cross. rewrite (proj2 (qlt_false (fst p) x0)) by lra. destruct (qlt (snd p) y0); auto.
Qed.
Lemma one_of_four {A} (f : nat -> list A) i v : (i < 4)%nat -> f i = v -> (forall j, (j < 4)%nat -> j <> i -> f j = []) -> flat_map f [0; 1; 2; 3]%nat = v.
Proof.
  intros I E N. cbn [flat_map]. destruct (lt4 i I) as [-> |[-> |[-> | ->]]].
  - rewrite (N 1%nat), (N 2%nat), (N 3%nat), E by lia. rewrite !app_nil_r. reflexivity.
  - rewrite (N 0%nat), (N 2%nat), (N 3%nat), E by lia. cbn [app]. rewrite !app_nil_r. reflexivity.
  - rewrite (N 0%nat), (N 1%nat), (N 3%nat), E by lia. cbn [app]. rewrite !app_nil_r. reflexivity.
  - rewrite (N 0%nat), (N 1%nat), (N 2%nat), E by lia. cbn [app]. rewrite !app_nil_r. reflexivity.
Qed.
Lemma cross_check a b c d x0 y0 nx ny r u i : (2 <= nx)%nat -> (2 <= ny)%nat -> proper r -> (i < 4)%nat -> 0 <= a < 16 -> 0 <= b < 16 -> 0 <= c < 16 -> 0 <= d < 16 -> Z.lor (Z.lor a b) (Z.lor c d) = 15 -> holds (child r (i, u)) x0 y0 ->
  check (cross a b c d x0 y0) (quad_pts nx ny (child r (0%nat, u)) (child r (3%nat, u)) i) = true.
Proof.
  intros Nx Ny P I Ha Hb Hc Hd F H. apply corner_check; try assumption; [apply cross_respects|intros x y _; unfold cross; destruct (qlt _ _), (qlt _ _); assumption|].
  cbv zeta. destruct (cross_corners a b c d x0 y0 _ H) as (-> & -> & -> & ->). exact F.
Qed.
Lemma cross_one a b c d x0 y0 nx ny ext mn rem : (2 <= nx)%nat -> (2 <= ny)%nat -> proper ext -> 0 <= a < 16 -> 0 <= b < 16 -> 0 <= c < 16 -> 0 <= d < 16 -> Z.lor (Z.lor a b) (Z.lor c d) = 15 -> lacks a b -> lacks c d -> lacks a c -> lacks b d ->
  forall base u, digits base -> holds (limits ext base) x0 y0 -> exists qs, bisect (cross a b c d x0 y0) nx ny ext mn rem base u = [qs] /\ digits qs /\ length qs = (length base + rem)%nat /\ holds (limits ext qs) x0 y0.
Proof.
  intros Nx Ny P Ha Hb Hc Hd F L1 L2 L3 L4. induction rem as [|n IH]; intros base u D H.
  - exists base. split; [reflexivity|]. split; [exact D|]. split; [lia|exact H].
  - destruct (limits_ok base ext P D) as (P' & _). destruct (holds_child _ u x0 y0 P' H) as (i & I & Hi & Ho). assert (Dg : digits (base ++ [(i, u)])) by (apply Forall_app; split; [exact D|constructor; [exact I|constructor]]).
    destruct (IH (base ++ [(i, u)]) false Dg) as (qs & Eq & Dq & Lq & Hq); [rewrite limits_snoc; exact Hi|]. exists qs.
    assert (E : level (cross a b c d x0 y0) nx ny ext (fun b0 => bisect (cross a b c d x0 y0) nx ny ext mn n b0 false) base u = [qs]).
    { unfold level, lo_of, hi_of. rewrite !limits_snoc. apply (one_of_four _ i); [exact I| |].
      - cbv beta. rewrite (cross_check a b c d x0 y0 nx ny _ u i Nx Ny P' I Ha Hb Hc Hd F Hi). exact Eq.
      - intros j J N. cbv beta. rewrite (cross_out a b c d x0 y0 nx ny _ u j P' J L1 L2 L3 L4 (Ho j J N)). reflexivity. }
    cbn [bisect]. rewrite E. split; [reflexivity|]. split; [exact Dq|]. split; [rewrite Lq, app_length; cbn [length]; lia|exact Hq].
Qed.
(** One crossing of four regions, anywhere: exactly one point, and close to it. *)
Theorem C58_cross : forall a b c d x0 y0 nx ny ext mn mx, (4 <= nx)%nat -> (4 <= ny)%nat -> proper ext -> holds ext x0 y0 -> 0 <= a < 16 -> 0 <= b < 16 -> 0 <= c < 16 -> 0 <= d < 16 ->
  Z.lor (Z.lor a b) (Z.lor c d) = 15 -> lacks a b -> lacks c d -> lacks a c -> lacks b d ->
  exists x y, get_sep_pts (cross a b c d x0 y0) nx ny ext mn mx = [(x, y)] /\
    (Qabs.Qabs (x - x0) <= Qpower (65 # 100) (Z.of_nat mx) * (xh ext - xl ext))%Q /\ (Qabs.Qabs (y - y0) <= Qpower (65 # 100) (Z.of_nat mx) * (yh ext - yl ext))%Q.
Proof.
  intros a b c d x0 y0 nx ny ext mn mx Nx Ny P H Ha Hb Hc Hd F L1 L2 L3 L4. assert (Nx' : (2 <= nx / 2)%nat) by (apply Nat.div_le_lower_bound; lia). assert (Ny' : (2 <= ny / 2)%nat) by (apply Nat.div_le_lower_bound; lia).
  unfold get_sep_pts. set (u := Nat.ltb _ _). destruct (cross_one a b c d x0 y0 (nx / 2) (ny / 2) ext mn mx Nx' Ny' P Ha Hb Hc Hd F L1 L2 L3 L4 [] u (Forall_nil _) H) as (qs & E & D & L & Hq). cbn [length Nat.add] in L.
  rewrite E. cbn [map]. exists (fst (center ext qs)), (snd (center ext qs)). split; [rewrite <- surjective_pairing; reflexivity|]. destruct (limits_ok qs ext P D) as (_ & _ & (S1 & S2)). rewrite L in S1, S2.
  assert (C := center_in ext qs P D). unfold interior, holds in *. split; apply Qabs.Qabs_Qle_condition; split; lra.
Qed.
Print Assumptions C58_cross.

(** * refuted *)
(** A coarse seed has no sample on any side: nothing is found, whatever the topologies are. *)
Lemma short_seg nx ny lo hi i : (nx <= 1)%nat -> (ny <= 1)%nat -> (length (seg nx ny lo hi i) <= 1)%nat.
Proof.
  intros Nx Ny. assert (L : forall n p q, (n <= 1)%nat -> (length (linspace p q n) <= 1)%nat) by (intros [|[|n]] p q N; cbn; lia).
  unfold seg. do 12 (destruct i as [|i]; [unfold hor, ver; rewrite map_length; apply L; assumption|]). unfold hor, ver; rewrite map_length; apply L; assumption.
Qed.
Lemma short_init {A} (l : list A) : (length l <= 1)%nat -> init l = [] /\ back l = [].
Proof. destruct l as [|a [|b l]]; cbn; intros; try lia; auto. Qed.
Theorem C58_coarse_refuted : forall T nx ny ext mn mx, (nx <= 3)%nat -> (ny <= 3)%nat -> (0 < mx)%nat -> get_sep_pts T nx ny ext mn mx = [].
Proof.
  intros T nx ny ext mn mx Nx Ny M. assert (Nx' : (nx / 2 <= 1)%nat) by (apply Nat.lt_succ_r, Nat.div_lt_upper_bound; lia). assert (Ny' : (ny / 2 <= 1)%nat) by (apply Nat.lt_succ_r, Nat.div_lt_upper_bound; lia).
  assert (Q : forall lo hi i, quad_pts (nx / 2) (ny / 2) lo hi i = []).
  { intros lo hi i. unfold quad_pts. assert (S := fun j => short_init _ (short_seg (nx / 2) (ny / 2) lo hi j Nx' Ny')). destruct i as [|[|[|i]]]; rewrite ?(proj1 (S _)), ?(proj2 (S _)); reflexivity. }
  assert (L : forall rec base u, level T (nx / 2) (ny / 2) ext rec base u = []) by (intros rec base u; unfold level; cbn [flat_map]; rewrite !Q; reflexivity).
  unfold get_sep_pts. destruct mx as [|mx]; [lia|]. generalize (Nat.ltb (length (bisect T (nx / 2) (ny / 2) ext 0 2 [] false)) (length (bisect T (nx / 2) (ny / 2) ext 0 2 [] true))). intros u. cbn [bisect]. rewrite !L. unfold give_up. cbn [length]. destruct u; [reflexivity|]. destruct (check _ _); reflexivity.
Qed.
Print Assumptions C58_coarse_refuted.
(** One kind with a further bit, such as the one for an unknown end, hides a crossing: topologies are not masked here. *)
Theorem C58_other_refuted : forall a b c d x0 y0 nx ny ext mn mx k, (4 <= nx)%nat -> (4 <= ny)%nat -> (0 < mx)%nat -> proper ext -> holds ext x0 y0 ->
  4 <= k -> Z.testbit d k = true -> lacks a b -> lacks c d -> lacks a c -> lacks b d -> get_sep_pts (cross a b c d x0 y0) nx ny ext mn mx = [].
Proof.
  intros a b c d x0 y0 nx ny ext mn mx k Nx Ny M P H K Dk L1 L2 L3 L4. assert (Nx' : (2 <= nx / 2)%nat) by (apply Nat.div_le_lower_bound; lia). assert (Ny' : (2 <= ny / 2)%nat) by (apply Nat.div_le_lower_bound; lia).
  assert (L : forall rec u, level (cross a b c d x0 y0) (nx / 2) (ny / 2) ext rec [] u = []).
  { intros rec u. unfold level, lo_of, hi_of. cbn [app]. change (limits ext [(0%nat, u)]) with (child ext (0%nat, u)). change (limits ext [(3%nat, u)]) with (child ext (3%nat, u)). destruct (holds_child _ u x0 y0 P H) as (i & I & Hi & Ho). apply (one_of_four _ i); [exact I| |].
    - cbv beta. destruct (check _ _) eqn:E; [exfalso|reflexivity]. rewrite check_spec in E. destruct (corners (nx / 2) (ny / 2) ext u i Nx' Ny' I) as (_ & _ & _ & (x & y & Ex & Ey & Hp)). destruct (cross_corners a b c d x0 y0 _ Hi) as (_ & _ & _ & Ed).
      assert (B : k < 4); [|lia]. apply (E k ltac:(lia)). exists (x, y). split; [exact Hp|]. cbn [fst snd]. rewrite (cross_respects a b c d x0 y0 _ _ _ _ Ex Ey), Ed. exact Dk.
    - intros j J N. cbv beta. rewrite (cross_out a b c d x0 y0 _ _ _ u j P J L1 L2 L3 L4 (Ho j J N)). reflexivity. }
  unfold get_sep_pts. destruct mx as [|mx]; [lia|]. generalize (Nat.ltb (length (bisect (cross a b c d x0 y0) (nx / 2) (ny / 2) ext 0 2 [] false)) (length (bisect (cross a b c d x0 y0) (nx / 2) (ny / 2) ext 0 2 [] true))). intros u. cbn [bisect]. rewrite !L. unfold give_up. cbn [length]. destruct u; [reflexivity|]. destruct (check _ _); reflexivity.
Qed.
Print Assumptions C58_other_refuted.

(** * the hypotheses can be met *)
Example C58_nonvacuous : exists x y, get_sep_pts (cross 1 2 4 8 (1 # 3) (1 # 5)) 8 8 (RT 0 1 0 2) 3 5 = [(x, y)] /\ (x == 21 # 64)%Q /\ (y == 7 # 32)%Q /\ get_sep_pts (cross 1 2 4 24 (1 # 3) (1 # 5)) 8 8 (RT 0 1 0 2) 3 5 = [] /\
  proper (RT 0 1 0 2) /\ holds (RT 0 1 0 2) (1 # 3) (1 # 5) /\ lacks 1 2 /\ lacks 4 8 /\ lacks 1 4 /\ lacks 2 8 /\ lacks 4 24 /\ lacks 2 24.
Proof.
  eexists; eexists. split; [vm_compute; reflexivity|]. split; [reflexivity|]. split; [reflexivity|]. split; [vm_compute; reflexivity|]. split; [split; reflexivity|]. split; [repeat split; discriminate|].
  split; [exists 2; split; reflexivity|]. split; [exists 0; split; reflexivity|]. split; [exists 1; split; reflexivity|]. split; [exists 0; split; reflexivity|]. split; [exists 0; split; reflexivity|exists 0; split; reflexivity].
Qed.
