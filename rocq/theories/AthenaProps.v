(** C75: an Athena run reads as what the simulation wrote. *)
From Coq Require Import String.
From Verif Require Import AthenaModel.
From Coq Require Import List ZArith QArith Lqa Lia Permutation Sorted DecimalString DecimalNat ZifyBool ZifyNat.
Import ListNotations.
Open Scope Z_scope.

(** ** what Athena writes *)
Record run := { r_coordsys : Z; r_x : list Q; r_y : list Q; r_z : list Q; r_adiabatic : bool; r_mhd : bool; r_nscalars : nat; r_flags : Z * Z; r_consts : Q * Q;
                r_time : Q; r_dt : Q; r_value : nat -> nat -> nat -> nat -> Q (* variable and cell *) }.
Definition nx r := length (r_x r).
Definition ny r := length (r_y r).
Definition nz r := length (r_z r).
Definition nvars (r : run) : nat := 4 + (if r_adiabatic r then 1 else 0) + (if r_mhd r then 3 else 0) + r_nscalars r.
(** the variables in their order: density, momentum, energy if there is one, magnetic field if there is one, and scalars, called by their number *)
Definition called (r : run) : list string :=
  ["d"; "M1"; "M2"; "M3"]%string ++ (if r_adiabatic r then ["E"%string] else []) ++ (if r_mhd r then ["B1"; "B2"; "B3"]%string else []) ++
  map (fun v => NilEmpty.string_of_uint (Nat.to_uint v)) (seq (nvars r - r_nscalars r) (r_nscalars r)).
Definition bytes4 (n : Z) : list Z := [n mod 256; n / 2 ^ 8 mod 256; n / 2 ^ 16 mod 256; n / 2 ^ 24 mod 256].
Definition put_int (big : bool) (n : Z) : list Z := if big then rev (bytes4 n) else bytes4 n.
Definition put_float (enc : Q -> list Z) (big : bool) (q : Q) : list Z := if big then rev (enc q) else enc q.
Definition ints (r : run) : list Z :=
  [r_coordsys r; Z.of_nat (nx r); Z.of_nat (ny r); Z.of_nat (nz r); Z.of_nat (nvars r); Z.of_nat (r_nscalars r); fst (r_flags r); snd (r_flags r)].
Definition cells (r : run) (v : nat) : list Q :=
  flat_map (fun k => flat_map (fun j => map (fun i => r_value r v i j k) (seq 0 (nx r))) (seq 0 (ny r))) (seq 0 (nz r)).
Definition floats (r : run) : list Q :=
  [fst (r_consts r); snd (r_consts r); r_time r; r_dt r] ++ r_x r ++ r_y r ++ r_z r ++ flat_map (cells r) (seq 0 (nvars r)).
Definition written (enc : Q -> list Z) (big : bool) (r : run) : list Z := flat_map (put_int big) (ints r) ++ flat_map (put_float enc big) (floats r).

(** what the nodes of an axis should be, given the centres of the cells: every cell has its centre inside; if the cells are equal, each has its centre in the
    middle and the size of the cells *)
Definition at_ (l : list Q) (i : nat) : Q := nth i l 0%Q.
Definition increasing (l : list Q) : Prop := forall i, (S i < length l)%nat -> (at_ l i < at_ l (S i))%Q.
Definition axis_ok (cc nodes : list Q) : Prop :=
  length nodes = S (length cc) /\
  (forall i, (i < length cc)%nat -> at_ nodes i < at_ cc i < at_ nodes (S i))%Q /\
  (forall x0 dx, (forall i, (i < length cc)%nat -> at_ cc i == x0 + inject_Z (Z.of_nat i) * dx)%Q ->
     forall i, (i < length cc)%nat -> (at_ nodes i + at_ nodes (S i) == 2 * at_ cc i)%Q /\ ((2 <= length cc)%nat -> at_ nodes (S i) - at_ nodes i == dx)%Q).
(** runs: every axis has cells, one has two; sizes fit; all numbers are floats of the file's kind *)
Record fine (ok : Q -> Prop) (r : run) : Prop := {
  f_cells : (0 < nx r)%nat /\ (0 < ny r)%nat /\ (0 < nz r)%nat; f_two : (2 <= nx r \/ 2 <= ny r \/ 2 <= nz r)%nat;
  f_small : Z.of_nat (nx r) < 2 ^ 31 /\ Z.of_nat (ny r) < 2 ^ 31 /\ Z.of_nat (nz r) < 2 ^ 31;
  f_incr : increasing (r_x r) /\ increasing (r_y r) /\ increasing (r_z r);
  f_ok : forall q, In q (floats r) -> ok q }.

(** ** lists *)
Lemma some_inj {A} (x y : A) : Some x = Some y -> x = y.
Proof. congruence. Qed.
Lemma nth_flat {A B} (f : A -> list B) (m : nat) : forall l k x i, (forall y, In y l -> length (f y) = m) ->
  nth_error l k = Some x -> (i < m)%nat -> nth_error (flat_map f l) (k * m + i) = nth_error (f x) i.
Proof.
  induction l as [|a l IH]; intros k x i Hm E Hi; [destruct k; discriminate|]. cbn [flat_map].
  assert (La : length (f a) = m) by (apply Hm; now left). destruct k as [|k]; cbn [nth_error] in E.
  - injection E as ->. cbn [Nat.mul Nat.add]. now rewrite nth_error_app1 by lia.
  - rewrite nth_error_app2 by lia. replace (S k * m + i - length (f a))%nat with (k * m + i)%nat by lia.
    apply IH; auto. intros y Hy. apply Hm. now right.
Qed.
Lemma flat_len {A B} (f : A -> list B) m l : (forall y, In y l -> length (f y) = m) -> length (flat_map f l) = (length l * m)%nat.
Proof.
  induction l as [|a l IH]; intros H; cbn [flat_map]; [reflexivity|]. rewrite app_length, (H a) by now left. rewrite IH by (intros y Hy; apply H; now right). cbn [length]. lia.
Qed.
Lemma nth_seq0 n k : (k < n)%nat -> nth_error (seq 0 n) k = Some k.
Proof. intros H. rewrite (nth_error_nth' (seq 0 n) 0%nat) by (rewrite seq_length; lia). now rewrite seq_nth by lia. Qed.
Lemma cells_len r v : length (cells r v) = (nz r * ny r * nx r)%nat.
Proof.
  unfold cells. rewrite (flat_len _ (ny r * nx r)), seq_length; [lia|]. intros k _. rewrite (flat_len _ (nx r)), seq_length; [lia|]. intros j _. now rewrite map_length, seq_length.
Qed.
Lemma cells_nth r v i j k : (i < nx r)%nat -> (j < ny r)%nat -> (k < nz r)%nat -> nth_error (cells r v) ((k * ny r + j) * nx r + i) = Some (r_value r v i j k).
Proof.
  intros Hi Hj Hk. unfold cells. assert (L1 : forall k j, length (map (fun i => r_value r v i j k) (seq 0 (nx r))) = nx r) by (intros; now rewrite map_length, seq_length).
  replace ((k * ny r + j) * nx r + i)%nat with (k * (ny r * nx r) + (j * nx r + i))%nat by nia.
  rewrite (nth_flat _ (ny r * nx r) (seq 0 (nz r)) k k); [|intros y _; rewrite (flat_len _ (nx r)), seq_length; auto|now apply nth_seq0|nia].
  rewrite (nth_flat _ (nx r) (seq 0 (ny r)) j j); auto using nth_seq0. rewrite nth_error_map, nth_seq0 by lia. reflexivity.
Qed.

(** ** numbers *)
Lemma bytes4_word n : word (bytes4 n) = n mod 2 ^ 32.
Proof.
  unfold word, bytes4. cbn [fold_right]. change (2 ^ 8) with 256. change (2 ^ 16) with 65536. change (2 ^ 24) with 16777216. change (2 ^ 32) with 4294967296.
  Z.div_mod_to_equations. lia.
Qed.
Lemma int_at_nth (b big : bool) l rest k n : nth_error l k = Some n ->
  int_at b (flat_map (put_int big) l ++ rest) (4 * k) = Some (signed (word (if b then rev (put_int big n) else put_int big n))).
Proof.
  revert k. induction l as [|a l IH]; intros k E; [destruct k; discriminate|]. assert (L : forall a, length (put_int big a) = 4%nat) by (intros; unfold put_int; destruct big; reflexivity).
  cbn [flat_map]. rewrite <- app_assoc. destruct k as [|k]; cbn [nth_error] in E.
  - injection E as ->. unfold int_at. change (4 * 0)%nat with 0%nat. rewrite skipn_O. rewrite firstn_app, L, Nat.sub_diag, firstn_O, app_nil_r, firstn_all2 by (rewrite L; lia). rewrite L. reflexivity.
  - specialize (IH k E). unfold int_at in *. replace (4 * S k)%nat with (length (put_int big a) + 4 * k)%nat by (rewrite L; lia).
    rewrite skipn_app. assert (Z0 : skipn (length (put_int big a) + 4 * k) (put_int big a) = []) by (apply skipn_all2; lia). rewrite Z0. cbn [app]. replace (length (put_int big a) + 4 * k - length (put_int big a))%nat with (4 * k)%nat by lia. exact IH.
Qed.
Lemma int_back (big : bool) n : 0 <= n < 2 ^ 31 -> signed (word (if big then rev (put_int big n) else put_int big n)) = n.
Proof.
  intros H. assert (E : (if big then rev (put_int big n) else put_int big n) = bytes4 n) by (unfold put_int; destruct big; [now rewrite rev_involutive|reflexivity]).
  rewrite E, bytes4_word. unfold signed. change (2 ^ 31) with 2147483648 in *. change (2 ^ 32) with 4294967296. rewrite Z.mod_small by lia. destruct (n <? 2147483648) eqn:C; lia.
Qed.
Lemma int_swapped n : 0 <= n < 256 -> signed (word (put_int true n)) = if n <? 128 then n * 2 ^ 24 else n * 2 ^ 24 - 2 ^ 32.
Proof.
  intros H. unfold put_int, bytes4, word, signed. cbn [rev app fold_right]. change (2 ^ 8) with 256. change (2 ^ 16) with 65536. change (2 ^ 24) with 16777216. change (2 ^ 32) with 4294967296. change (2 ^ 31) with 2147483648.
  assert (E1 : n mod 256 = n) by (apply Z.mod_small; lia). assert (E2 : n / 256 = 0) by (apply Z.div_small; lia). assert (E3 : n / 65536 = 0) by (apply Z.div_small; lia). assert (E4 : n / 16777216 = 0) by (apply Z.div_small; lia).
  rewrite E1, E2, E3, E4. change (0 mod 256) with 0. destruct (n <? 128) eqn:C; destruct (0 + 256 * (0 + 256 * (0 + 256 * (n + 256 * 0))) <? 2147483648) eqn:D; lia.
Qed.
Section FLOATS.
Variables (w : nat) (dec : list Z -> Q) (enc : Q -> list Z) (ok : Q -> Prop).
Hypothesis enc_ok : forall q, ok q -> length (enc q) = w /\ dec (enc q) = q.
Lemma floats_ok big l : forall pre rest, (forall q, In q l -> ok q) -> floats_at w dec big (pre ++ flat_map (put_float enc big) l ++ rest) (length pre) (length l) = Some l.
Proof.
  induction l as [|q l IH]; intros pre rest H; [reflexivity|]. cbn [length floats_at flat_map]. destruct (enc_ok q (H q (or_introl eq_refl))) as (L & D).
  assert (Lq : length (put_float enc big q) = w) by (unfold put_float; destruct big; [rewrite rev_length|]; exact L).
  assert (E : firstn w (skipn (length pre) (pre ++ (put_float enc big q ++ flat_map (put_float enc big) l) ++ rest)) = put_float enc big q).
  { rewrite skipn_app, skipn_all, Nat.sub_diag. cbn [app skipn]. rewrite <- app_assoc, firstn_app, Lq, Nat.sub_diag. cbn [firstn]. rewrite app_nil_r. apply firstn_all2. lia. }
  rewrite E, Lq, Nat.eqb_refl. replace (dec (if big then rev (put_float enc big q) else put_float enc big q)) with q by (unfold put_float; destruct big; [rewrite rev_involutive|]; symmetry; exact D).
  specialize (IH (pre ++ put_float enc big q) rest). rewrite app_length, Lq in IH. rewrite <- !app_assoc in *. rewrite IH; [reflexivity|]. intros p Hp. apply H. now right.
Qed.
Lemma floats_len big l : (forall q, In q l -> ok q) -> length (flat_map (put_float enc big) l) = (length l * w)%nat.
Proof. intros H. apply flat_len. intros q Hq. destruct (enc_ok q (H q Hq)) as (L & _). unfold put_float. destruct big; [rewrite rev_length|]; exact L. Qed.
Lemma floats_in big pre a l b : (forall q, In q (a ++ l ++ b) -> ok q) ->
  floats_at w dec big (pre ++ flat_map (put_float enc big) (a ++ l ++ b)) (length pre + length a * w) (length l) = Some l.
Proof.
  intros H. rewrite !flat_map_app, app_assoc. rewrite <- (floats_len big a) by (intros q Hq; apply H; apply in_or_app; now left).
  rewrite <- app_length. apply floats_ok. intros q Hq. apply H. apply in_or_app. right. apply in_or_app. now left.
Qed.
End FLOATS.

(** ** names *)
Lemma names_called r : names (Z.of_nat (nvars r)) (Z.of_nat (r_nscalars r)) = called r.
Proof.
  unfold names, called, str. cbv zeta. replace (Z.of_nat (nvars r) - Z.of_nat (r_nscalars r)) with (4 + (if r_adiabatic r then 1 else 0) + (if r_mhd r then 3 else 0)) by (unfold nvars; destruct (r_adiabatic r), (r_mhd r); lia).
  replace (nvars r - r_nscalars r)%nat with (4 + (if r_adiabatic r then 1 else 0) + (if r_mhd r then 3 else 0))%nat by (unfold nvars; lia).
  rewrite Nat2Z.id.
  assert (E : forall a b, Z.of_nat b = a -> map (fun i => NilEmpty.string_of_uint (Nat.to_uint (Z.to_nat (a + Z.of_nat i)))) (seq 0 (r_nscalars r)) = map (fun v => NilEmpty.string_of_uint (Nat.to_uint v)) (seq b (r_nscalars r))).
  { intros a b <-. generalize (r_nscalars r). intros n. replace (seq b n) with (seq (b + 0) n) by (rewrite Nat.add_0_r; reflexivity). generalize 0%nat.
    induction n as [|n IH]; intros s; [reflexivity|]. cbn [seq map]. f_equal; [do 2 f_equal; lia|]. rewrite IH. do 2 f_equal. lia. }
  destruct (r_adiabatic r), (r_mhd r); [rewrite (E (4 + 1 + 3) 8%nat eq_refl)|rewrite (E (4 + 1 + 0) 5%nat eq_refl)|rewrite (E (4 + 0 + 3) 7%nat eq_refl)|rewrite (E (4 + 0 + 0) 4%nat eq_refl)]; reflexivity.
Qed.
Lemma str_inj a b : NilEmpty.string_of_uint (Nat.to_uint a) = NilEmpty.string_of_uint (Nat.to_uint b) -> a = b.
Proof. intros E. apply Unsigned.to_uint_inj. assert (Q : Some (Nat.to_uint a) = Some (Nat.to_uint b)) by (rewrite <- !NilEmpty.usu; now rewrite E). congruence. Qed.
Lemma str_digit a : exists c s, NilEmpty.string_of_uint (Nat.to_uint a) = String c s /\ (48 <= Ascii.nat_of_ascii c <= 57)%nat \/ NilEmpty.string_of_uint (Nat.to_uint a) = EmptyString.
Proof. destruct (Nat.to_uint a); cbn [NilEmpty.string_of_uint]; [exists Ascii.zero, EmptyString; now right|..]; do 2 eexists; left; (split; [reflexivity|vm_compute; lia]). Qed.
Lemma called_nodup r : NoDup (called r).
Proof.
  unfold called. set (s := map _ _).
  assert (D : forall x, In x s -> ~ In x ["d"; "M1"; "M2"; "M3"; "E"; "B1"; "B2"; "B3"]%string).
  { intros x Hx. apply in_map_iff in Hx. destruct Hx as (v & <- & _). destruct (str_digit v) as (c & t & [(E & B)|E]); rewrite E; intros H; cbn [In] in H;
      repeat (destruct H as [H|H]; [try discriminate H; injection H as <- <-; vm_compute in B; lia|]); destruct H. }
  assert (N : NoDup s). { apply FinFun.Injective_map_NoDup; [intros a b; apply str_inj|apply seq_NoDup]. }
  assert (K : forall l, NoDup l -> (forall x, In x l -> In x ["d"; "M1"; "M2"; "M3"; "E"; "B1"; "B2"; "B3"]%string) -> NoDup (l ++ s)).
  { induction l as [|x l IH]; intros Nl Hl; [exact N|]. apply NoDup_cons_iff in Nl. destruct Nl as (Hn & Nl). cbn [app]. constructor; [|apply IH; auto; intros y Hy; apply Hl; now right].
    intros H. apply in_app_or in H. destruct H as [H|H]; [auto|]. apply (D x H). apply Hl. now left. }
  rewrite !app_assoc. apply K.
  - destruct (r_adiabatic r), (r_mhd r); cbn [app]; repeat (constructor; [cbn [In]; intuition discriminate|]); constructor.
  - destruct (r_adiabatic r), (r_mhd r); cbn [app In]; tauto.
Qed.
Lemma called_len r : length (called r) = nvars r.
Proof. unfold called. rewrite !app_length, map_length, seq_length. unfold nvars. destruct (r_adiabatic r), (r_mhd r); cbn [length]; lia. Qed.
Lemma get_at l : forall v name acc (g : nat -> option (list Q)) s, NoDup l -> nth_error l v = Some name ->
  fold_left (fun acc p => if String.eqb (fst p) name then Some (snd p) else acc) (map (fun p => (snd p, g (fst p))) (combine (seq s (length l)) l)) acc = Some (g (s + v)%nat).
Proof.
  induction l as [|x l IH]; intros v name acc g s N E; [destruct v; discriminate|]. apply NoDup_cons_iff in N. destruct N as (Hn & N). cbn [length seq combine map fold_left fst snd].
  destruct v as [|v]; cbn [nth_error] in E.
  - injection E as ->. rewrite String.eqb_refl, Nat.add_0_r. generalize (Some (g s)). clear - Hn. intros acc. generalize (S s). induction l as [|y l IH]; intros t; [reflexivity|].
    cbn [length seq combine map fold_left fst snd]. destruct (String.eqb y name) eqn:E; [apply String.eqb_eq in E; subst; exfalso; apply Hn; now left|]. apply IH. intros H. apply Hn. now right.
  - rewrite (IH v name) by assumption. do 2 f_equal. lia.
Qed.

(** ** axes *)
Lemma halves_len c : length (halves c) = (length c - 1)%nat.
Proof. induction c as [|a [|b c] IH]; [reflexivity..|]. cbn [halves length] in *. rewrite IH. cbn [length]. lia. Qed.
Lemma halves_nth c : forall i, (S i < length c)%nat -> at_ (halves c) i = ((1 # 2) * (at_ c (S i) - at_ c i))%Q.
Proof. induction c as [|a [|b c] IH]; intros i H; [cbn in H; lia..|]. destruct i as [|i]; [reflexivity|]. cbn [length] in H. unfold at_ in *. cbn [halves nth] in *. rewrite IH by (cbn; lia). reflexivity. Qed.
Lemma mids_len c : forall hd, length (mids c hd) = Nat.min (length c) (length hd).
Proof. induction c as [|a c IH]; intros [|h hd]; try reflexivity. cbn [mids length]. rewrite IH. lia. Qed.
Lemma mids_nth c : forall hd i, (i < length c)%nat -> (i < length hd)%nat -> at_ (mids c hd) i = (at_ c i + at_ hd i)%Q.
Proof. induction c as [|a c IH]; intros [|h hd] [|i] H1 H2; cbn [length] in *; try lia; [reflexivity|]. unfold at_ in *. cbn [mids nth]. apply IH; lia. Qed.
Lemma last_at l : l <> [] -> last l 0%Q = at_ l (length l - 1).
Proof.
  induction l as [|a [|b l] IH]; [congruence|reflexivity|]. intros _. change (last (a :: b :: l) 0%Q) with (last (b :: l) 0%Q). rewrite IH by discriminate. unfold at_. cbn [length]. replace (S (S (length l)) - 1)%nat with (S (S (length l) - 1))%nat by lia. reflexivity.
Qed.
Lemma nodes_many d cc : (2 <= length cc)%nat -> exists nodes, axis_nodes d cc = Some nodes /\ length nodes = S (length cc) /\
  (at_ nodes 0 == at_ cc 0 - (1 # 2) * (at_ cc 1 - at_ cc 0))%Q /\
  (forall i, (S i < length cc)%nat -> at_ nodes (S i) == (1 # 2) * (at_ cc i + at_ cc (S i)))%Q /\
  (forall i, S (S i) = length cc -> at_ nodes (length cc) == at_ cc (S i) + (1 # 2) * (at_ cc (S i) - at_ cc i))%Q.
Proof.
  intros H. unfold axis_nodes. pose proof (halves_len cc) as L. pose proof (halves_nth cc) as N. destruct (halves cc) as [|h0 hd] eqn:E; [cbn in L; lia|].
  exists ((nth 0 cc 0 - h0)%Q :: mids cc (h0 :: hd) ++ [(last cc 0 + last (h0 :: hd) 0)%Q]). split; [reflexivity|]. pose proof (mids_len cc (h0 :: hd)) as Lm. split; [cbn [length]; rewrite app_length, Lm; cbn [length] in *; lia|].
  split; [|split].
  - unfold at_ at 1. cbn [nth]. replace h0 with (at_ (h0 :: hd) 0) by reflexivity. rewrite N by lia. reflexivity.
  - intros i Hi. unfold at_ at 1. cbn [nth]. rewrite app_nth1 by (rewrite Lm; cbn [length] in *; lia). fold (at_ (mids cc (h0 :: hd)) i). rewrite mids_nth by (cbn [length] in *; lia). rewrite N by lia. lra.
  - intros i Hi. rewrite <- Hi at 1. unfold at_ at 1. cbn [nth]. rewrite app_nth2 by (rewrite Lm; cbn [length] in *; lia). replace (S i - length (mids cc (h0 :: hd)))%nat with 0%nat by (rewrite Lm; cbn [length] in *; lia).
    cbn [nth]. rewrite !last_at by (discriminate || (intros ->; cbn in Hi; lia)). rewrite N by (cbn [length] in *; lia). replace (length cc - 1)%nat with (S i) by lia. replace (length (h0 :: hd) - 1)%nat with i by (cbn [length] in *; lia). reflexivity.
Qed.
Lemma axis_many d cc : (2 <= length cc)%nat -> increasing cc -> exists nodes, axis_nodes d cc = Some nodes /\ axis_ok cc nodes.
Proof.
  intros H I. destruct (nodes_many d cc H) as (nodes & E & L & N0 & Ni & Nl). exists nodes. split; [exact E|]. split; [exact L|].
  assert (K : forall i, (i < length cc)%nat -> (i = 0%nat \/ exists j, i = S j /\ (S j < length cc)%nat) /\ (S i = length cc /\ (exists j, i = S j) \/ (S i < length cc)%nat)).
  { intros i Hi. split; [destruct i as [|j]; [now left|right; eauto]|]. destruct (Nat.eq_dec (S i) (length cc)); [left; split; [assumption|destruct i as [|j]; [lia|eauto]]|right; lia]. }
  split.
  - intros i Hi. destruct (K i Hi) as ([->|(j & -> & Hj)] & [(Hl & j' & Ej)|Hl]).
    + discriminate.
    + rewrite N0, Ni by lia. specialize (I 0%nat Hl). lra.
    + injection Ej as <-. rewrite Ni by lia. rewrite Hl, (Nl j) by lia. specialize (I j Hj). lra.
    + rewrite !Ni by lia. pose proof (I j Hj). pose proof (I (S j) Hl). lra.
  - intros x0 dx U i Hi.
    assert (Us : forall i, (S i < length cc)%nat -> (at_ cc (S i) == at_ cc i + dx)%Q).
    { intros k Hk. rewrite !U by lia. rewrite Nat2Z.inj_succ, <- Z.add_1_r, inject_Z_plus. change (inject_Z 1) with 1%Q. ring. }
    destruct (K i Hi) as ([->|(j & -> & Hj)] & [(Hl & j' & Ej)|Hl]).
    + discriminate.
    + rewrite N0, Ni by lia. pose proof (Us 0%nat Hl). split; [|intros _]; lra.
    + injection Ej as <-. rewrite Ni by lia. rewrite Hl, (Nl j) by lia. pose proof (Us j Hj). split; [|intros _]; lra.
    + rewrite !Ni by lia. pose proof (Us j Hj). pose proof (Us (S j) Hl). split; [|intros _]; lra.
Qed.
Lemma axis_one d c : (0 < d)%Q -> exists nodes, axis_nodes (Some d) [c] = Some nodes /\ axis_ok [c] nodes.
Proof.
  intros H. eexists. split; [reflexivity|]. split; [reflexivity|]. split.
  - intros [|i] Hi; [|cbn in Hi; lia]. unfold at_. cbn [nth]. lra.
  - intros x0 dx _ [|i] Hi; [|cbn in Hi; lia]. unfold at_. cbn [nth length]. split; [lra|lia].
Qed.
Lemma min_diff_pos c : forall acc, increasing c -> (match acc with Some d => 0 < d | None => True end)%Q -> (acc <> None \/ (2 <= length c)%nat) -> exists d, min_diff c acc = Some d /\ (0 < d)%Q.
Proof.
  induction c as [|a [|b c] IH]; intros acc I A H; [destruct acc as [q|]; [exists q; split; [reflexivity|exact A]|destruct H; [congruence|cbn in *; lia]]..|]. cbn [min_diff]. apply IH.
  - intros i Hi. apply (I (S i)). cbn [length] in *. lia.
  - assert (Q0 : (0 < b - a)%Q) by (pose proof (I 0%nat ltac:(cbn [length]; lia)) as X; unfold at_ in X; cbn [nth] in X; lra).
    destruct acc as [m|]; [|exact Q0]. unfold qmin. destruct (Qle_bool m (b - a)); assumption.
  - left. discriminate.
Qed.
Lemma axis_nodes_ok d cc : (0 < length cc)%nat -> increasing cc -> (0 < d)%Q -> exists nodes, axis_nodes (Some d) cc = Some nodes /\ axis_ok cc nodes.
Proof. intros H I D. destruct cc as [|c [|c' cc]]; [cbn in H; lia|now apply axis_one|apply axis_many; [cbn; lia|exact I]]. Qed.

(** ** the theorem *)
Section FILE.
Variables (w : nat) (dec : list Z -> Q) (enc : Q -> list Z) (ok : Q -> Prop).
Hypothesis enc_ok : forall q, ok q -> length (enc q) = w /\ dec (enc q) = q.
Lemma header_ok (big : bool) r : fine ok r -> (if big then (nvars r < 128)%nat else Z.of_nat (nvars r) < 1000) ->
  read_header w dec (written enc big r) =
    Some {| h_big := big; h_nx := nx r; h_ny := ny r; h_nz := nz r; h_nvars := Z.of_nat (nvars r); h_names := called r; h_time := r_time r; h_x := r_x r; h_y := r_y r; h_z := r_z r;
            h_loc := 32 + 4 * w + (nx r + ny r + nz r) * w |}.
Proof.
  intros [(P1 & P2 & P3) Ptwo (S1 & S2 & S3) Pinc Pok] Hb. unfold read_header, written.
  assert (N4 : (4 <= nvars r)%nat) by (unfold nvars; lia). assert (Ns : (r_nscalars r <= nvars r)%nat) by (unfold nvars; lia).
  assert (Nb : Z.of_nat (nvars r) < 1000) by (destruct big; lia).
  assert (G : forall k n, nth_error (ints r) k = Some n -> 0 <= n < 2 ^ 31 -> int_at big (flat_map (put_int big) (ints r) ++ flat_map (put_float enc big) (floats r)) (4 * k) = Some n).
  { intros k n E B. rewrite (int_at_nth big big _ _ k n E). now rewrite int_back. }
  set (bs := flat_map (put_int big) (ints r) ++ flat_map (put_float enc big) (floats r)) in *.
  assert (D : exists nv, int_at false bs 16 = Some nv /\ negb (nv <? 1000) = big).
  { change 16%nat with (4 * 4)%nat. unfold bs. rewrite (int_at_nth false big (ints r) _ 4 (Z.of_nat (nvars r)) eq_refl). eexists. split; [reflexivity|]. destruct big.
    - rewrite int_swapped by lia. change (2 ^ 24) with 16777216. replace (Z.of_nat (nvars r) <? 128) with true by lia. lia.
    - rewrite (int_back false) by (change (2 ^ 31) with 2147483648; lia). lia. }
  destruct D as (nv & -> & E0). unfold bind at 1. rewrite E0.
  change 4%nat with (4 * 1)%nat at 1. rewrite (G 1%nat (Z.of_nat (nx r))) by (reflexivity || lia).
  change 8%nat with (4 * 2)%nat at 1. rewrite (G 2%nat (Z.of_nat (ny r))) by (reflexivity || lia).
  change 12%nat with (4 * 3)%nat at 1. rewrite (G 3%nat (Z.of_nat (nz r))) by (reflexivity || lia).
  change 16%nat with (4 * 4)%nat at 1. rewrite (G 4%nat (Z.of_nat (nvars r))) by (reflexivity || (change (2 ^ 31) with 2147483648; lia)).
  change 20%nat with (4 * 5)%nat at 1. rewrite (G 5%nat (Z.of_nat (r_nscalars r))) by (reflexivity || (change (2 ^ 31) with 2147483648; lia)).
  change 24%nat with (4 * 6)%nat at 1. unfold bs at 1. rewrite (int_at_nth big big (ints r) _ 6 _ eq_refl). fold bs.
  change 28%nat with (4 * 7)%nat at 1. unfold bs at 1. rewrite (int_at_nth big big (ints r) _ 7 _ eq_refl). fold bs.
  unfold bind. rewrite !Nat2Z.id.
  assert (L32 : length (flat_map (put_int big) (ints r)) = 32%nat) by (rewrite (flat_len _ 4); [reflexivity|intros; unfold put_int; destruct big; reflexivity]).
  assert (Fi : forall a l b pos n, floats r = a ++ l ++ b -> n = length l -> pos = (32 + length a * w)%nat -> floats_at w dec big bs pos n = Some l).
  { intros a l b pos n E -> ->. unfold bs. rewrite E, <- L32. apply (floats_in w dec enc ok enc_ok). intros q Hq. apply Pok. now rewrite E. }
  rewrite (Fi [] [fst (r_consts r); snd (r_consts r)] ([r_time r; r_dt r] ++ r_x r ++ r_y r ++ r_z r ++ flat_map (cells r) (seq 0 (nvars r)))); [|reflexivity|reflexivity|cbn [length]; lia].
  rewrite (Fi [fst (r_consts r); snd (r_consts r)] [r_time r; r_dt r] (r_x r ++ r_y r ++ r_z r ++ flat_map (cells r) (seq 0 (nvars r)))); [|reflexivity|reflexivity|cbn [length]; lia].
  set (c4 := [fst (r_consts r); snd (r_consts r); r_time r; r_dt r]).
  rewrite (Fi c4 (r_x r) (r_y r ++ r_z r ++ flat_map (cells r) (seq 0 (nvars r)))); [|reflexivity|reflexivity|cbn [length c4]; lia].
  rewrite (Fi (c4 ++ r_x r) (r_y r) (r_z r ++ flat_map (cells r) (seq 0 (nvars r)))); [|unfold floats, c4; now rewrite <- !app_assoc|reflexivity|rewrite app_length; unfold c4, nx; cbn [length]; lia].
  rewrite (Fi (c4 ++ r_x r ++ r_y r) (r_z r) (flat_map (cells r) (seq 0 (nvars r)))); [|unfold floats, c4; now rewrite <- !app_assoc|reflexivity|rewrite !app_length; unfold c4, nx, ny; cbn [length]; lia].
  rewrite names_called. reflexivity.
Qed.
Lemma field_ok big r h v : fine ok r -> (v < nvars r)%nat -> h = {| h_big := big; h_nx := nx r; h_ny := ny r; h_nz := nz r; h_nvars := Z.of_nat (nvars r); h_names := called r; h_time := r_time r; h_x := r_x r; h_y := r_y r; h_z := r_z r;
            h_loc := 32 + 4 * w + (nx r + ny r + nz r) * w |} -> read_field w dec h (written enc big r) v = Some (cells r v).
Proof.
  intros [_ _ _ _ Pok] Hv ->. unfold read_field. cbn [h_nvars h_big h_nx h_ny h_nz h_loc]. replace (Z.of_nat v <? Z.of_nat (nvars r)) with true by lia.
  assert (L32 : length (flat_map (put_int big) (ints r)) = 32%nat) by (rewrite (flat_len _ 4); [reflexivity|intros; unfold put_int; destruct big; reflexivity]).
  assert (E : floats r = ([fst (r_consts r); snd (r_consts r); r_time r; r_dt r] ++ r_x r ++ r_y r ++ r_z r ++ flat_map (cells r) (seq 0 v)) ++ cells r v ++ flat_map (cells r) (seq (S v) (nvars r - S v))).
  { unfold floats. rewrite <- !app_assoc. do 4 f_equal. replace (nvars r) with (v + S (nvars r - S v))%nat at 1 by lia. rewrite seq_app, flat_map_app. reflexivity. }
  unfold written. rewrite E. match goal with |- floats_at _ _ _ _ ?p _ = _ => assert (Ep : exists pos, pos = p) by eauto; destruct Ep as (pos & Ep); rewrite <- Ep end. rewrite <- (cells_len r v).
  match goal with |- floats_at _ _ _ _ ?p _ = _ => match goal with |- context [flat_map (put_float enc big) (?a ++ cells r v ++ _)] => replace p with (length (flat_map (put_int big) (ints r)) + length a * w)%nat end end.
  - apply (floats_in w dec enc ok enc_ok). intros q Hq. apply Pok. now rewrite E.
  - rewrite Ep, L32, !app_length, (flat_len _ (nz r * ny r * nx r)), seq_length by (intros; apply cells_len). unfold nx, ny, nz. cbn [length]. lia.
Qed.

Theorem C75_file (big : bool) r : fine ok r -> (if big then (nvars r < 128)%nat else Z.of_nat (nvars r) < 1000) ->
  exists res, load w dec (written enc big r) = Some res /\ l_time res = r_time r /\ map fst (l_fields res) = called r /\
    axis_ok (r_x r) (l_x res) /\ axis_ok (r_y r) (l_y res) /\ axis_ok (r_z r) (l_z res) /\
    forall v name i j k, nth_error (called r) v = Some name -> (i < nx r)%nat -> (j < ny r)%nat -> (k < nz r)%nat -> at_cell res name i j k = Some (r_value r v i j k).
Proof.
  intros F Hb. unfold load. rewrite (header_ok big r F Hb). set (h := {| h_big := big |}). unfold bind at 1. unfold make_crds.
  pose proof F as [(P1 & P2 & P3) Ptwo _ (I1 & I2 & I3) _]. cbn [h_x h_y h_z h].
  assert (D : exists d, min_diff (r_x r) (min_diff (r_y r) (min_diff (r_z r) None)) = Some d /\ (0 < d)%Q).
  { destruct (le_lt_dec 2 (nz r)) as [Hz|Hz].
    - destruct (min_diff_pos (r_z r) None I3 I (or_intror Hz)) as (dz & -> & Dz). destruct (min_diff_pos (r_y r) (Some dz) I2 Dz) as (dy & -> & Dy); [left; discriminate|]. apply min_diff_pos; [exact I1|exact Dy|left; discriminate].
    - assert (Ez : min_diff (r_z r) None = None) by (unfold nz in *; destruct (r_z r) as [|a [|b l]]; [reflexivity..|cbn in Hz; lia]). rewrite Ez.
      destruct (le_lt_dec 2 (ny r)) as [Hy|Hy].
      + destruct (min_diff_pos (r_y r) None I2 I (or_intror Hy)) as (dy & -> & Dy). apply min_diff_pos; [exact I1|exact Dy|left; discriminate].
      + assert (Ey : min_diff (r_y r) None = None) by (unfold ny in *; destruct (r_y r) as [|a [|b l]]; [reflexivity..|cbn in Hy; lia]). rewrite Ey. apply min_diff_pos; [exact I1|exact I|right; unfold nx in *; lia]. }
  destruct D as (d & -> & Dd).
  destruct (axis_nodes_ok d (r_x r) P1 I1 Dd) as (xn & Ex & Ax). destruct (axis_nodes_ok d (r_y r) P2 I2 Dd) as (yn & Ey & Ay). destruct (axis_nodes_ok d (r_z r) P3 I3 Dd) as (zn & Ez & Az).
  rewrite Ex, Ey, Ez. cbn [bind]. eexists. split; [reflexivity|]. cbn [l_time l_fields l_x l_y l_z]. split; [reflexivity|]. split.
  { rewrite map_map. cbn [fst]. cbn [h_names h]. rewrite called_len. generalize (called_len r). generalize (nvars r). generalize 0%nat. induction (called r) as [|c l IH]; intros s n E; [destruct n; [reflexivity|discriminate]|].
    destruct n as [|n]; [discriminate|]. cbn [seq combine map snd]. f_equal. apply IH. now injection E. }
  split; [exact Ax|]. split; [exact Ay|]. split; [exact Az|]. intros v name i j k Hn Hi Hj Hk.
  unfold at_cell, get_field. cbn [l_fields l_x l_y]. cbn [h_names h].
  rewrite (get_at (called r) v name None (read_field w dec h (written enc big r)) 0 (called_nodup r) Hn). cbn [Nat.add bind].
  assert (Hv : (v < nvars r)%nat) by (rewrite <- called_len; apply nth_error_Some; congruence).
  rewrite (field_ok big r h v F Hv eq_refl). cbn [bind]. destruct Ax as (Lx & _). destruct Ay as (Ly & _). rewrite Lx, Ly. unfold nx, ny in *.
  replace (S (length (r_x r)) - 1)%nat with (length (r_x r)) by lia. replace (S (length (r_y r)) - 1)%nat with (length (r_y r)) by lia. now apply cells_nth.
Qed.

Lemma header_big bs h nv : int_at false bs 16 = Some nv -> read_header w dec bs = Some h -> h_big h = negb (nv <? 1000) /\ (h_big h = false -> h_nvars h = nv).
Proof.
  intros A. unfold read_header. rewrite A. unfold bind at 1. generalize (negb (nv <? 1000)). intros b. unfold bind.
  destruct (int_at b bs 4); [|discriminate]. destruct (int_at b bs 8); [|discriminate]. destruct (int_at b bs 12); [|discriminate]. destruct (int_at b bs 16) as [n16|] eqn:E16; [|discriminate].
  destruct (int_at b bs 20); [|discriminate]. destruct (int_at b bs 24); [|discriminate]. destruct (int_at b bs 28); [|discriminate].
  destruct (floats_at w dec b bs 32 2); [|discriminate]. destruct (floats_at w dec b bs (32 + 2 * w) 2); [|discriminate].
  repeat match goal with |- match ?x with Some _ => _ | None => None end = Some _ -> _ => destruct x; [|discriminate] end.
  intros E. apply some_inj in E. rewrite <- E. cbn [h_big h_nvars]. split; [congruence|]. intros Eb'. rewrite Eb' in E16. congruence.
Qed.
(** a big endian file with 128 variables or more, up to 255, is taken for a little endian one; the number of variables is then negative *)
Theorem C75_big_endian_refuted r : (128 <= nvars r < 256)%nat -> (forall h, read_header w dec (written enc true r) = Some h -> h_big h = false /\ h_nvars h < 0) /\
  forall res name l, load w dec (written enc true r) = Some res -> get_field res name <> Some (Some l).
Proof.
  intros Hn.
  assert (A : int_at false (written enc true r) 16 = Some (Z.of_nat (nvars r) * 2 ^ 24 - 2 ^ 32)).
  { change 16%nat with (4 * 4)%nat. unfold written. rewrite (int_at_nth false true (ints r) _ 4 (Z.of_nat (nvars r)) eq_refl). rewrite int_swapped by lia. replace (Z.of_nat (nvars r) <? 128) with false by lia. reflexivity. }
  assert (K : forall h, read_header w dec (written enc true r) = Some h -> h_big h = false /\ h_nvars h < 0).
  { intros h E. destruct (header_big _ h _ A E) as (E1 & E2). clear - E1 E2 Hn. change (2 ^ 24) with 16777216 in *. change (2 ^ 32) with 4294967296 in *.
    replace (Z.of_nat (nvars r) * 16777216 - 4294967296 <? 1000) with true in E1 by lia. cbn [negb] in E1. split; [exact E1|]. rewrite (E2 E1). lia. }
  split; [exact K|]. intros res name l. unfold load. destruct (read_header w dec (written enc true r)) as [h|]; [|discriminate]. destruct (K h eq_refl) as (_ & Neg). unfold bind at 1.
  destruct (make_crds h) as [[[x y] z]|]; [|discriminate]. cbn [bind]. intros E. assert (E' : l_fields res = map (fun p => (snd p, read_field w dec h (written enc true r) (fst p))) (combine (seq 0 (length (h_names h))) (h_names h))) by (apply some_inj in E; rewrite <- E; reflexivity).
  unfold get_field. rewrite E'. clear E E'.
  assert (G : forall ps acc, acc <> Some (Some l) -> fold_left (fun acc p => if String.eqb (fst p) name then Some (snd p) else acc) (map (fun p => (snd p, read_field w dec h (written enc true r) (fst p))) ps) acc <> Some (Some l)).
  { induction ps as [|p ps IH]; intros acc Ha; [exact Ha|]. cbn [map fold_left fst snd]. apply IH. destruct (String.eqb (snd p) name); [|exact Ha]. unfold read_field. replace (Z.of_nat (fst p) <? h_nvars h) with false by lia. discriminate. }
  apply G. discriminate.
Qed.
End FILE.
(** cells of different sizes: the centres in the file are not in the middle of the cells, which is where cell centred fields are *)
Theorem C75_centres_refuted : exists cc nodes, increasing cc /\ axis_nodes None cc = Some nodes /\ ~ (at_ nodes 1 + at_ nodes 2 == 2 * at_ cc 1)%Q.
Proof. exists [0; 1; 3]%Q. eexists. split; [intros [|[|i]] H; [reflexivity..|cbn in H; lia]|]. split; [reflexivity|]. vm_compute. discriminate. Qed.

(** ** groups of files: [fr] is the run and [fnum] the number in the name of a file *)
Section GROUPS.
Context {R F : Type}.
Variable leb : R -> R -> bool.
Hypothesis leb_total : forall a b, leb a b = true \/ leb b a = true.
Hypothesis leb_trans : forall a b c, leb a b = true -> leb b c = true -> leb a c = true.
Hypothesis leb_anti : forall a b, leb a b = true -> leb b a = true -> a = b.
Notation file := (R * Z * F)%type.
Definition fr (a : file) : R := fst (fst a).
Definition fnum (a : file) : Z := snd (fst a).
Definition by_run_and_number (a b : file) : Prop := leb (fr a) (fr b) = true /\ (fr a = fr b -> fnum a <= fnum b).

Lemma ins_perm {K} (le : K -> K -> bool) key (a : file) l : Permutation (a :: l) (ins le key a l).
Proof. induction l as [|b l IH]; cbn [ins]; [reflexivity|]. destruct (le (key a) (key b)); [reflexivity|]. rewrite perm_swap. now constructor. Qed.
Lemma sort_perm {K} (le : K -> K -> bool) key (l : list file) : Permutation l (sort_by le key l).
Proof. induction l as [|a l IH]; [reflexivity|]. cbn [sort_by fold_right]. rewrite <- ins_perm. now constructor. Qed.
Lemma sort_number (l : list file) : StronglySorted (fun a b => fnum a <= fnum b) (sort_by Z.leb fnum l).
Proof.
  induction l as [|a l IH]; [constructor|]. cbn [sort_by fold_right]. change (fold_right (ins Z.leb fnum) [] l) with (sort_by Z.leb fnum l). revert IH. generalize (sort_by Z.leb fnum l). intros s.
  induction 1 as [|b s Ss IH Fb]; cbn [ins]; [repeat constructor|]. destruct (fnum a <=? fnum b) eqn:E.
  - constructor; [now constructor|]. constructor; [lia|]. rewrite Forall_forall in *. intros c Hc. specialize (Fb c Hc). lia.
  - constructor; [exact IH|]. rewrite Forall_forall in *. intros c Hc. apply (Permutation_in _ (Permutation_sym (ins_perm Z.leb fnum a s))) in Hc. destruct Hc as [<-|Hc]; [lia|auto].
Qed.
Lemma sort_run (l : list file) : StronglySorted (fun a b => fnum a <= fnum b) l -> StronglySorted by_run_and_number (sort_by leb fr l).
Proof.
  induction 1 as [|a l Ss IH Fa]; [constructor|]. cbn [sort_by fold_right]. change (fold_right (ins leb fr) [] l) with (sort_by leb fr l).
  assert (Fa' : forall b, In b (sort_by leb fr l) -> fnum a <= fnum b). { rewrite Forall_forall in Fa. intros b Hb. apply Fa. exact (Permutation_in _ (Permutation_sym (sort_perm leb fr l)) Hb). }
  clear Ss Fa. revert IH Fa'. generalize (sort_by leb fr l). intros s. induction 1 as [|b s Ss IH Fb]; intros Fa; cbn [ins]; [repeat constructor|]. destruct (leb (fr a) (fr b)) eqn:E.
  - constructor; [now constructor|]. rewrite Forall_forall in *. intros c Hc. split; [|intros _; now apply Fa]. destruct Hc as [<-|Hc]; [exact E|]. destruct (Fb c Hc) as (T & _). exact (leb_trans _ _ _ E T).
  - constructor; [apply IH; intros c Hc; apply Fa; now right|]. rewrite Forall_forall in *. intros c Hc. apply (Permutation_in _ (Permutation_sym (ins_perm leb fr a s))) in Hc. destruct Hc as [<-|Hc]; [|auto].
    destruct (leb_total (fr a) (fr b)) as [T|T]; [congruence|]. split; [exact T|]. intros Q. rewrite Q in T. congruence.
Qed.
Lemma split_ok l : forall cur last, cur <> [] -> Forall (fun a => fr a = last) cur -> StronglySorted by_run_and_number (cur ++ l) ->
  concat (split_runs leb cur last l) = cur ++ l /\ Forall (fun g => g <> [] /\ exists r, Forall (fun a : file => fr a = r) g) (split_runs leb cur last l) /\
  ForallOrdPairs (fun g g' => forall a b : file, In a g -> In b g' -> fr a <> fr b) (split_runs leb cur last l).
Proof.
  induction l as [|a l IH]; intros cur last Hc Hl Ss; cbn [split_runs].
  - rewrite app_nil_r. cbn [concat]. rewrite app_nil_r. split; [reflexivity|]. split; [constructor; [eauto|constructor]|]. constructor; constructor.
  - change (fst (fst a)) with (fr a). destruct (leb (fr a) last && leb last (fr a)) eqn:E.
    + apply andb_prop in E. destruct E as (E1 & E2). pose proof (leb_anti _ _ E1 E2) as Er. replace (cur ++ a :: l) with ((cur ++ [a]) ++ l) in * by (rewrite <- app_assoc; reflexivity).
      rewrite Er. apply IH; [destruct cur; discriminate| |exact Ss]. apply Forall_app. split; [exact Hl|]. constructor; [exact Er|constructor].
    + assert (Ss' : StronglySorted by_run_and_number (a :: l)). { clear - Ss. induction cur as [|c cur IHc]; [exact Ss|]. cbn [app] in Ss. apply StronglySorted_inv in Ss. apply IHc, Ss. }
      destruct (IH [a] (fr a)) as (C & G & D); [discriminate|constructor; [reflexivity|constructor]|exact Ss'|]. cbn [app] in C. cbn [concat]. rewrite C. split; [reflexivity|].
      split; [constructor; [eauto|exact G]|]. constructor; [|exact D]. rewrite Forall_forall. intros g Hg x y Hx Hy Q.
      assert (Hy' : In y (a :: l)). { rewrite <- C. apply in_concat. eauto. } rewrite Forall_forall in Hl. pose proof (Hl x Hx) as Lx.
      assert (Ha : leb last (fr a) = true). { rewrite <- Lx. clear - Ss Hx. induction cur as [|c cur IHc]; [destruct Hx|]. cbn [app] in Ss. apply StronglySorted_inv in Ss. destruct Ss as (Ss & Fc). destruct Hx as [->|Hx]; [|auto].
        rewrite Forall_forall in Fc. apply (Fc a). apply in_or_app. right. now left. }
      assert (Hay : leb (fr a) (fr y) = true). { destruct Hy' as [<-|Hy']; [destruct (leb_total (fr a) (fr a)); assumption|]. apply StronglySorted_inv in Ss'. destruct Ss' as (_ & Fa). rewrite Forall_forall in Fa. apply (Fa y Hy'). }
      rewrite <- Q, Lx in Hay. rewrite Hay, Ha in E. discriminate.
Qed.
Lemma sorted_in_concat {A} (P : A -> A -> Prop) gs : StronglySorted P (concat gs) -> Forall (StronglySorted P) gs.
Proof.
  induction gs as [|g gs IH]; intros H; [constructor|]. cbn [concat] in H. constructor.
  - clear IH. induction g as [|a g IHg]; [constructor|]. cbn [app] in H. apply StronglySorted_inv in H. destruct H as (H & Fa). constructor; [auto|]. apply Forall_app in Fa. apply Fa.
  - apply IH. induction g as [|a g IHg]; [exact H|]. cbn [app] in H. apply StronglySorted_inv in H. apply IHg, H.
Qed.
(** the files of each run are in one group, in the order of their numbers, and no group has files of two runs *)
Theorem C75_groups (l : list file) : l <> [] -> exists gs, group leb l = Some (map (map snd) gs) /\ Permutation l (concat gs) /\
  Forall (fun g => g <> [] /\ (exists r, Forall (fun a => fr a = r) g) /\ StronglySorted (fun a b => fnum a <= fnum b) g) gs /\
  ForallOrdPairs (fun g g' => forall a b, In a g -> In b g' -> fr a <> fr b) gs.
Proof.
  intros Hl. unfold group. change (fun a : file => snd (fst a)) with fnum. change (fun a : file => fst (fst a)) with fr.
  pose proof (sort_run _ (sort_number l)) as Ss. assert (P : Permutation l (sort_by leb fr (sort_by Z.leb fnum l))) by (rewrite <- sort_perm; apply sort_perm).
  destruct (sort_by leb fr (sort_by Z.leb fnum l)) as [|a s]; [exfalso; apply Hl; now apply Permutation_nil, Permutation_sym|].
  destruct (split_ok s [a] (fr a)) as (C & G & D); [discriminate|constructor; [reflexivity|constructor]|exact Ss|]. exists (split_runs leb [a] (fr a) s).
  split; [reflexivity|]. rewrite C. split; [exact P|]. split; [|exact D]. pose proof (sorted_in_concat by_run_and_number (split_runs leb [a] (fr a) s)) as Sg. rewrite C in Sg. specialize (Sg Ss).
  rewrite Forall_forall in *. intros g Hg. destruct (G g Hg) as (Ng & (r & Er)). split; [exact Ng|]. split; [eauto|]. specialize (Sg g Hg). clear - Sg Er.
  induction Sg as [|b g Sg IH Fb]; [constructor|]. apply Forall_cons_iff in Er. destruct Er as (Eb & Er). constructor; [auto|]. rewrite Forall_forall in *. intros c Hc. destruct (Fb c Hc) as (_ & Q). apply Q. rewrite (Er c Hc). exact Eb.
Qed.
End GROUPS.
Print Assumptions C75_file.
Print Assumptions C75_big_endian_refuted.
Print Assumptions C75_centres_refuted.
Print Assumptions C75_groups.

(** small whole numbers as four bytes *)
Definition ex_enc (q : Q) : list Z := bytes4 (Qnum q).
Definition ex_dec (l : list Z) : Q := inject_Z (word l).
Definition ex_ok (q : Q) : Prop := Qden q = 1%positive /\ 0 <= Qnum q < 2 ^ 31.
Definition ex_run : run := {| r_coordsys := (-1)%Z; r_x := [0; 2; 4]; r_y := [1; 7]; r_z := [5]; r_adiabatic := true; r_mhd := true; r_nscalars := 2; r_flags := (0%Z, 0%Z); r_consts := (1, 1);
  r_time := 9; r_dt := 1; r_value := fun v i j k => inject_Z (1000 * Z.of_nat v + 100 * Z.of_nat i + 10 * Z.of_nat j + Z.of_nat k)%Z |}%Q.
Example C75_file_nonvacuous : (forall q, ex_ok q -> length (ex_enc q) = 4%nat /\ ex_dec (ex_enc q) = q) /\ fine ex_ok ex_run /\
  exists res, load 4 ex_dec (written ex_enc true ex_run) = Some res /\ at_cell res "B2" 2 1 0 = Some (inject_Z 6210) /\ at_cell res "9" 0 1 0 = Some (inject_Z 9010).
Proof.
  split; [|split].
  - intros [n d] (D & H). cbn in D, H. subst d. split; [reflexivity|]. unfold ex_dec, ex_enc. rewrite bytes4_word. cbn [Qnum]. rewrite Z.mod_small by (change (2 ^ 32) with 4294967296; lia). reflexivity.
  - split.
    + cbn. lia.
    + cbn. lia.
    + cbn. lia.
    + repeat split; intros [|[|i]] H; cbn in H; try lia; reflexivity.
    + intros q Hq. vm_compute in Hq. unfold ex_ok. repeat (destruct Hq as [<-|Hq]; [split; [reflexivity|split; [discriminate|reflexivity]]|]). destruct Hq.
  - eexists. split; [vm_compute; reflexivity|]. split; vm_compute; reflexivity.
Qed.
Example C75_groups_nonvacuous : group Nat.leb [((2, 5%Z), "b5"); ((1, 3%Z), "a3"); ((2, 4%Z), "b4"); ((1, 10%Z), "a10")]%nat%string = Some [["a3"; "a10"]; ["b4"; "b5"]]%string.
Proof. reflexivity. Qed.
