(** C76: the flux function and beta are what they are defined to be. *)
From Verif Require Import PsiModel.
From Coq Require Import List QArith Lqa Lia Reals Lra ZifyBool ZifyNat.
Import ListNotations.
Open Scope Q_scope.

(** ** specification *)
Section SPEC.
Variables (y z : nat -> Q) (hy hz : nat -> nat -> Q).
(** walks along the grid lines; the flux through a step is that of the field with values joined by straight lines *)
Inductive step : nat * nat -> nat * nat -> Q -> Prop :=
| s_up i j : step (i, j) (i, S j) (- ((z (S j) - z j) * (hy i j + hy i (S j)) * (1 # 2)))
| s_down i j : step (i, S j) (i, j) ((z (S j) - z j) * (hy i j + hy i (S j)) * (1 # 2))
| s_right i j : step (i, j) (S i, j) ((y (S i) - y i) * (hz i j + hz (S i) j) * (1 # 2))
| s_left i j : step (S i, j) (i, j) (- ((y (S i) - y i) * (hz i j + hz (S i) j) * (1 # 2))).
(** [walk ny nz p q f]: inside the grid from [p] to [q] with the flux [f] to one side *)
Definition inside (ny nz : nat) (p : nat * nat) : Prop := (fst p < ny)%nat /\ (snd p < nz)%nat.
Inductive walk (ny nz : nat) : nat * nat -> nat * nat -> Q -> Prop :=
| w_here p : inside ny nz p -> walk ny nz p p 0
| w_step p q r f g : inside ny nz p -> step p q f -> walk ny nz q r g -> walk ny nz p r (f + g).
(** as much flux goes into each cell as comes out of it *)
Definition no_sources (ny nz : nat) : Prop := forall i j, (S i < ny)%nat -> (S j < nz)%nat ->
  (z (S j) - z j) * (hy i j + hy i (S j)) * (1 # 2) + (y (S i) - y i) * (hz i j + hz (S i) j) * (1 # 2) ==
  (z (S j) - z j) * (hy (S i) j + hy (S i) (S j)) * (1 # 2) + (y (S i) - y i) * (hz i (S j) + hz (S i) (S j)) * (1 # 2).
End SPEC.

(** ** the flux function *)
Section PROOFS.
Variables (y z : nat -> Q) (hy hz : nat -> nat -> Q).
Notation psi := (psi y z hy hz).
Lemma psi_right ny nz : no_sources y z hy hz ny nz -> forall j i, (S i < ny)%nat -> (j < nz)%nat -> psi (S i) j - psi i j == (y (S i) - y i) * (hz i j + hz (S i) j) * (1 # 2).
Proof.
  intros D. induction j as [|j IH]; intros i Hi Hj; cbn [PsiModel.psi].
  - cbn [first_row]. unfold dy. ring.
  - specialize (IH i Hi ltac:(lia)). specialize (D i j Hi Hj). unfold dz.
    setoid_replace (psi (S i) j - (z (S j) - z j) * (1 # 2) * (hy (S i) j + hy (S i) (S j)) - (psi i j - (z (S j) - z j) * (1 # 2) * (hy i j + hy i (S j)))) with
      ((psi (S i) j - psi i j) + (z (S j) - z j) * (hy i j + hy i (S j)) * (1 # 2) - (z (S j) - z j) * (hy (S i) j + hy (S i) (S j)) * (1 # 2)) by ring.
    rewrite IH. Lqa.lra.
Qed.
Lemma psi_up i j : psi i (S j) - psi i j == - ((z (S j) - z j) * (hy i j + hy i (S j)) * (1 # 2)).
Proof. cbn [PsiModel.psi]. unfold dz. ring. Qed.
Lemma psi_step ny nz p q f : no_sources y z hy hz ny nz -> inside ny nz p -> inside ny nz q -> step y z hy hz p q f -> psi (fst q) (snd q) - psi (fst p) (snd p) == f.
Proof.
  intros D (P1 & P2) (Q1 & Q2) Hs. destruct Hs; cbn [fst snd] in *.
  - apply psi_up.
  - pose proof (psi_up i j). Lqa.lra.
  - now apply (psi_right ny nz).
  - pose proof (psi_right ny nz D j i P1 P2) as E. Lqa.lra.
Qed.
Lemma walk_start ny nz p q f : walk y z hy hz ny nz p q f -> inside ny nz p.
Proof. destruct 1; assumption. Qed.
(** for a field without sources, the difference of the flux function is the flux through any walk between two points *)
Theorem C76_flux ny nz p q f : no_sources y z hy hz ny nz -> walk y z hy hz ny nz p q f -> psi (fst q) (snd q) - psi (fst p) (snd p) == f.
Proof.
  intros D W. induction W as [p Hp|p q r f g Hp Hs W IH]; [ring|]. pose proof (psi_step ny nz p q f D Hp (walk_start _ _ _ _ _ W) Hs) as E.
  setoid_replace (psi (fst r) (snd r) - psi (fst p) (snd p)) with ((psi (fst q) (snd q) - psi (fst p) (snd p)) + (psi (fst r) (snd r) - psi (fst q) (snd q))) by ring. rewrite E, IH. reflexivity.
Qed.
(** for any field, this holds along z, and along y on the first row *)
Theorem C76_any_field i j : psi 0 0 == 0 /\ psi i (S j) - psi i j == - ((z (S j) - z j) * (hy i j + hy i (S j)) * (1 # 2)) /\ psi (S i) 0 - psi i 0 == (y (S i) - y i) * (hz i 0%nat + hz (S i) 0%nat) * (1 # 2).
Proof. split; [reflexivity|]. split; [apply psi_up|]. cbn [PsiModel.psi first_row]. unfold dy. ring. Qed.
(** beginning from the other corner only adds a constant *)
Theorem C76_rev ny nz i j : no_sources y z hy hz ny nz -> (i < ny)%nat -> (j < nz)%nat -> psi_rev y z hy hz ny nz i j == psi i j - psi (ny - 1) (nz - 1).
Proof.
  intros D Hi Hj. unfold psi_rev. remember (nz - 1 - j)%nat as b eqn:Eb. revert j Hj Eb. induction b as [|b IH]; intros j Hj Eb; cbn [psi_from_end].
  - replace j with (nz - 1)%nat by lia. remember (ny - 1 - i)%nat as a eqn:Ea. revert i Hi Ea. induction a as [|a IH]; intros i Hi Ea; cbn [last_row].
    + replace i with (ny - 1)%nat by lia. ring.
    + replace (ny - 2 - a)%nat with i by lia. rewrite (IH (S i)) by lia. pose proof (psi_right ny nz D (nz - 1) i ltac:(lia) ltac:(lia)). unfold dy. Lqa.lra.
  - replace (nz - 2 - b)%nat with j by lia. rewrite (IH (S j)) by lia. pose proof (psi_up i j). unfold dz. Lqa.lra.
Qed.
End PROOFS.
(** for the field of any quadratic flux function the result is this function, up to a constant, on any grid *)
Theorem C76_quadratic (a b c d e : Q) (y z : nat -> Q) i j :
  let P u v := a * u * u + b * u * v + c * v * v + d * u + e * v in
  PsiModel.psi y z (fun i j => - (b * y i + 2 * c * z j + e)) (fun i j => 2 * a * y i + b * z j + d) i j == P (y i) (z j) - P (y 0%nat) (z 0%nat).
Proof.
  cbv zeta. induction j as [|j IH]; cbn [PsiModel.psi].
  - induction i as [|i IH]; cbn [first_row]; [ring|]. rewrite IH. unfold dy. ring.
  - rewrite IH. unfold dz. ring.
Qed.

(** ** the plane: the axis with one point is left out, or the one with two, or else the one with the fewest; if there is not one such axis, it is an error *)
Definition sizes (nx ny nz : nat) : axes := [(0, nx); (1, ny); (2, nz)]%nat.
Theorem C76_plane nx ny nz : (1 <= nx)%nat -> (1 <= ny)%nat -> (1 <= nz)%nat ->
  (nx = 1 -> 2 <= ny -> 2 <= nz -> plane (sizes nx ny nz) = Some (1, 2))%nat /\ (ny = 1 -> 2 <= nx -> 2 <= nz -> plane (sizes nx ny nz) = Some (0, 2))%nat /\ (nz = 1 -> 2 <= nx -> 2 <= ny -> plane (sizes nx ny nz) = Some (0, 1))%nat /\
  (nx = 2 -> 3 <= ny -> 3 <= nz -> plane (sizes nx ny nz) = Some (1, 2))%nat /\ (ny = 2 -> 3 <= nx -> 3 <= nz -> plane (sizes nx ny nz) = Some (0, 2))%nat /\ (nz = 2 -> 3 <= nx -> 3 <= ny -> plane (sizes nx ny nz) = Some (0, 1))%nat /\
  (3 <= nx -> nx <= ny -> nx <= nz -> plane (sizes nx ny nz) = Some (1, 2))%nat /\ (3 <= ny -> ny < nx -> ny <= nz -> plane (sizes nx ny nz) = Some (0, 2))%nat /\ (3 <= nz -> nz < nx -> nz < ny -> plane (sizes nx ny nz) = Some (0, 1))%nat /\
  ((nx = 1 /\ ny = 1) \/ (nx = 1 /\ nz = 1) \/ (ny = 1 /\ nz = 1) \/ (nx = 2 /\ ny = 2 /\ 1 < nz) \/ (nx = 2 /\ nz = 2 /\ 1 < ny) \/ (ny = 2 /\ nz = 2 /\ 1 < nx) -> plane (sizes nx ny nz) = None)%nat.
Proof.
  intros Hx Hy Hz. repeat split; intros; unfold plane, reduced, sizes; cbn [filter snd fst];
  repeat (match goal with |- context [(?a =? 1)%nat] => let E := fresh in destruct (a =? 1)%nat eqn:E; try (exfalso; lia) end; cbn [negb filter snd fst]); cbn [length Nat.ltb Nat.leb filter snd fst];
  repeat (match goal with |- context [(?a <=? 2)%nat] => let E := fresh in destruct (a <=? 2)%nat eqn:E; try (exfalso; lia) end; cbn [negb filter snd fst]); cbn [length Nat.eqb argmin snd fst];
  repeat (match goal with |- context [(?a <? ?b)%nat] => let E := fresh in destruct (a <? b)%nat eqn:E; try (exfalso; lia) end; cbn [negb filter snd fst Nat.eqb]); try reflexivity; exfalso; lia.
Qed.

(** ** beta: the definition has the square of the field *)
Open Scope R_scope.
Definition beta_spec (scale pp bx by_ bz : R) : R := scale * (2 * pp / (bx ^ 2 + by_ ^ 2 + bz ^ 2)).
Theorem C76_beta_refuted scale pp bx by_ bz : scale <> 0 -> pp <> 0 -> 0 < bx ^ 2 + by_ ^ 2 + bz ^ 2 ->
  beta scale pp bx by_ bz = beta_spec scale pp bx by_ bz <-> bx ^ 2 + by_ ^ 2 + bz ^ 2 = 1.
Proof.
  intros Hs Hp Hb. unfold beta, beta_spec. set (b := bx ^ 2 + by_ ^ 2 + bz ^ 2) in *. pose proof (sqrt_lt_R0 b Hb) as Hq. pose proof (sqrt_sqrt b (Rlt_le _ _ Hb)) as Hqq. split.
  - intros E. assert (E2 : sqrt b = 1).
    { apply (Rmult_eq_reg_l (scale * 2 * pp)); [|repeat apply Rmult_integral_contrapositive_currified; lra].
      assert (scale * 2 * pp * sqrt b = scale * 2 * pp / sqrt b * b). { rewrite <- Hqq at 3. field. lra. }
      rewrite H, E. field. lra. }
    rewrite <- Hqq, E2. ring.
  - intros E. rewrite E, sqrt_1. field.
Qed.
(** it is 2 p / |B|, so that it does not change as it should if the unit of the field is changed *)
Theorem C76_beta_units k scale pp bx by_ bz : 0 < k -> 0 < bx ^ 2 + by_ ^ 2 + bz ^ 2 ->
  beta scale pp (k * bx) (k * by_) (k * bz) = beta scale pp bx by_ bz / k /\ beta_spec scale pp (k * bx) (k * by_) (k * bz) = beta_spec scale pp bx by_ bz / k ^ 2.
Proof.
  intros Hk Hb. unfold beta, beta_spec. replace ((k * bx) ^ 2 + (k * by_) ^ 2 + (k * bz) ^ 2) with (k ^ 2 * (bx ^ 2 + by_ ^ 2 + bz ^ 2)) by ring.
  rewrite sqrt_mult by (nra || lra). rewrite sqrt_pow2 by lra. pose proof (sqrt_lt_R0 _ Hb). split; field; lra.
Qed.
Print Assumptions C76_flux.
Print Assumptions C76_any_field.
Print Assumptions C76_rev.
Print Assumptions C76_quadratic.
Print Assumptions C76_plane.
Print Assumptions C76_beta_refuted.
Print Assumptions C76_beta_units.

Open Scope Q_scope.
Example C76_nonvacuous : let y i := inject_Z (Z.of_nat (i * i)) in let z j := inject_Z (Z.of_nat j) in let hy i j := - (3 * y i + z j + 1) in let hz i j := y i + 3 * z j in
  no_sources y z hy hz 4 5 /\ (exists f, walk y z hy hz 4 5 (1, 0)%nat (2, 1)%nat f /\ f == 21) /\ PsiModel.psi y z hy hz 2 1 - PsiModel.psi y z hy hz 1 0 == 21.
Proof.
  cbv zeta. split; [intros i j Hi Hj; destruct i as [|[|[|i]]]; destruct j as [|[|[|[|j]]]]; try lia; vm_compute; reflexivity|]. split.
  - eexists. split.
    + eapply w_step; [split; cbn; lia|apply s_up|]. eapply w_step; [split; cbn; lia|apply s_right|]. apply w_here. split; cbn; lia.
    + vm_compute. reflexivity.
  - vm_compute. reflexivity.
Qed.
