(** C13: the Runge-Kutta methods have the order their names say. *)
From Verif Require Import IntegModel IntegSpec.
From Coq Require Import Lra Lia Arith.
Open Scope R_scope.

(** * the rooted trees of a bounded size *)
Definition fsize (cs : list tree) : nat := fold_right (fun c n => (size c + n)%nat) O cs.
Fixpoint forests (n : nat) : list (list tree) :=
  match n with O => [[]] | S n => [] :: flat_map (fun f => map (cons (Node f)) (forests n)) (forests n) end.
Lemma forests_all : forall n cs, (fsize cs <= n)%nat -> In cs (forests n).
Proof.
  induction n as [|n IH]; intros [|[f] cs] H.
  - left. reflexivity.
  - cbn in H. lia.
  - left. reflexivity.
  - right. apply in_flat_map. exists f. change (fsize (Node f :: cs)) with (S (fsize f) + fsize cs)%nat in H. split; [apply IH; lia|]. apply in_map, IH. lia.
Qed.
Lemma order_check p rows b : Forall (fun cs => dot b (weights rows (Node cs)) * density (Node cs) = 1) (filter (fun cs => fsize cs <=? p)%nat (forests p)) -> order (S p) rows b.
Proof.
  intros F [cs] H. rewrite Forall_forall in F. apply F. change (size (Node cs)) with (S (fsize cs)) in H. apply filter_In. split; [apply forests_all; lia|apply Nat.leb_le; lia].
Qed.
Ltac check_order n := apply (order_check n); match goal with |- Forall _ ?l => let l' := eval vm_compute in l in change l with l' end;
  repeat (apply Forall_cons; [cbn [weights density size fold_right map combine dot sum fst snd INR Nat.add]; unfold dot, sum; cbn [fold_right map combine fst snd]; field|]); apply Forall_nil.
Lemma euler_order : order 1 euler_rows [1].
Proof. unfold euler_rows. check_order 0%nat. Qed.
Lemma midpoint_order : order 2 midpoint_rows [0; 1].
Proof. unfold midpoint_rows. check_order 1%nat. Qed.
Lemma kutta_order : order 4 kutta_rows kutta_b.
Proof. unfold kutta_rows, kutta_b. check_order 3%nat. Qed.
Lemma fehlberg_order4 : order 4 fehlberg_rows fehlberg_b4.
Proof. unfold fehlberg_rows, fehlberg_b4. check_order 3%nat. Qed.
Lemma fehlberg_order5 : order 5 fehlberg_rows fehlberg_b5.
Proof. unfold fehlberg_rows, fehlberg_b5. check_order 4%nat. Qed.
