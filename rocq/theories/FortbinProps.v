(** C93: the binary files of OpenGGCM. *)
From Verif Require Import FldModel FldProofs FortbinModel.
From Coq Require Import List ZArith Bool Lia Arith ZifyBool ZifyNat.
Import ListNotations.
Open Scope Z_scope.

(** ** specification: how a file is written *)
Record rec := Rec { little : bool; time : Z; dims : list Z; name : list byte; stamp : list byte; data : list (list byte) }.
(** a number in four bytes *)
Definition num (l : bool) (n : Z) : list byte :=
  let b := [n mod 256; n / 256 mod 256; n / 65536 mod 256; n / 16777216 mod 256] in if l then b else rev b.
(** a value is given as its four bytes, the most significant first *)
Definition word (l : bool) (w : list byte) : list byte := if l then rev w else w.
Definition pad (s : list byte) : list byte := s ++ repeat 32 (80 - length s).
Definition head (r : rec) : list byte :=
  num (little r) 2 ++ num (little r) (time r) ++ num (little r) (Z.of_nat (length (dims r))) ++ concat (map (num (little r)) (dims r)) ++ pad (name r) ++ stamp r.
Definition enc (r : rec) : list byte := head r ++ concat (map (word (little r)) (data r)).
Definition file (l : list rec) : list byte := concat (map enc l).
Definition edge_ok (s : list byte) : Prop := match s with [] => False | b :: _ => blank b = false end.
Definition valid (r : rec) : Prop :=
  dims r <> [] /\ Z.of_nat (length (dims r)) < 2147483648 /\ (forall d, In d (dims r) -> 0 <= d < 2147483648) /\
  edge_ok (name r) /\ edge_ok (rev (name r)) /\ (length (name r) <= 80)%nat /\ length (stamp r) = 80%nat /\
  Z.of_nat (length (data r)) = prod (dims r) /\ (forall w, In w (data r) -> length w = 4%nat).
(** the first index is the fastest *)
Fixpoint fortran_pos (ds is : list Z) : Z := match ds, is with d :: ds', i :: is' => i + d * fortran_pos ds' is' | _, _ => 0 end.
Definition has_values (a : nd (list byte)) (r : rec) : Prop :=
  shape a = rev (dims r) /\ forall is, in_shape (dims r) is -> get a (rev is) = nth (Z.to_nat (fortran_pos (dims r) is)) (data r) [].

(** ** proofs *)
Lemma skip_exact {A} n (a x : list A) : length a = n -> skipn n (a ++ x) = x.
Proof. intros <-. rewrite skipn_app, skipn_all, Nat.sub_diag. reflexivity. Qed.
Lemma first_exact {A} n (a x : list A) : length a = n -> firstn n (a ++ x) = a.
Proof. intros <-. rewrite firstn_app, firstn_all, Nat.sub_diag. cbn. apply app_nil_r. Qed.
Lemma num_length l n : length (num l n) = 4%nat.
Proof. unfold num. destruct l; reflexivity. Qed.
Lemma num_int l n x : exists z, int_at l (num l n ++ x) = Some z /\ (0 <= n < 2147483648 -> z = n).
Proof.
  unfold int_at. rewrite first_exact by apply num_length. assert (E : ordered l (num l n) = [n mod 256; n / 256 mod 256; n / 65536 mod 256; n / 16777216 mod 256]) by (unfold ordered, num; destruct l; cbv zeta; [reflexivity|apply rev_involutive]). rewrite E. cbn [int_le]. eexists. split; [reflexivity|].
  intros H. assert (S : n mod 256 + 256 * (n / 256 mod 256) + 65536 * (n / 65536 mod 256) + 16777216 * (n / 16777216 mod 256) = n).
  { assert (E1 : n / 65536 = n / 256 / 256) by (rewrite Z.div_div by lia; reflexivity). assert (E2 : n / 16777216 = n / 256 / 256 / 256) by (rewrite !Z.div_div by lia; reflexivity). rewrite E1, E2. set (a := n / 256). set (b := a / 256). set (c := b / 256).
    assert (Ec : c mod 256 = c). { apply Z.mod_small. unfold c, b, a. rewrite !Z.div_div by lia. split; [apply Z.div_pos; lia|apply Z.div_lt_upper_bound; lia]. }
    rewrite Ec. pose proof (Z.div_mod n 256 ltac:(lia)). pose proof (Z.div_mod a 256 ltac:(lia)). pose proof (Z.div_mod b 256 ltac:(lia)). fold a in H0. fold b in H1. fold c in H2. lia. }
  rewrite S. destruct (Z.ltb_spec n 2147483648); lia.
Qed.
Lemma nums_length l ds : length (concat (map (num l) ds)) = (4 * length ds)%nat.
Proof. induction ds as [|d ds IH]; [reflexivity|]. cbn [map concat length]. rewrite app_length, num_length, IH. lia. Qed.
Lemma ints_nums l ds x : (forall d, In d ds -> 0 <= d < 2147483648) -> ints l (length ds) (concat (map (num l) ds) ++ x) = Some ds.
Proof.
  induction ds as [|d ds IH]; intros H; [reflexivity|]. cbn [length ints map concat]. rewrite <- app_assoc. destruct (num_int l d (concat (map (num l) ds) ++ x)) as [z [-> Hz]]. rewrite Hz by (apply H; left; reflexivity).
  rewrite skip_exact by apply num_length. rewrite IH by (intros e He; apply H; right; exact He). reflexivity.
Qed.
Lemma word_length l w : length w = 4%nat -> length (word l w) = 4%nat.
Proof. intros H. unfold word. destruct l; rewrite ?rev_length; exact H. Qed.
Lemma words_length l ws : (forall w, In w ws -> length w = 4%nat) -> length (concat (map (word l) ws)) = (4 * length ws)%nat.
Proof. induction ws as [|w ws IH]; intros H; [reflexivity|]. cbn [map concat length]. rewrite app_length, IH by (intros v Hv; apply H; right; exact Hv). rewrite word_length by (apply H; left; reflexivity). lia. Qed.
Lemma words_data l ws x : (forall w, In w ws -> length w = 4%nat) -> words l (length ws) (concat (map (word l) ws) ++ x) = Some ws.
Proof.
  induction ws as [|w ws IH]; intros H; [reflexivity|]. cbn [length words map concat]. rewrite <- app_assoc. assert (Lw : length (word l w) = 4%nat) by (apply word_length, H; left; reflexivity). rewrite first_exact, skip_exact, Lw by exact Lw. cbn [Nat.ltb Nat.leb].
  rewrite IH by (intros v Hv; apply H; right; exact Hv). assert (E : rev (ordered l (word l w)) = w) by (unfold ordered, word; destruct l; apply rev_involutive). rewrite E. reflexivity.
Qed.
Lemma pad_length s : (length s <= 80)%nat -> length (pad s) = 80%nat.
Proof. intros H. unfold pad. rewrite app_length, repeat_length. lia. Qed.
Lemma drop_ok s : edge_ok s -> drop_blank s = s.
Proof. destruct s as [|b s]; intros H; [destruct H|]. cbn in *. rewrite H. reflexivity. Qed.
Lemma drop_blanks n s : drop_blank (repeat 32 n ++ s) = drop_blank s.
Proof. induction n as [|n IH]; [reflexivity|exact IH]. Qed.
Lemma rev_repeat {A} (x : A) n : rev (repeat x n) = repeat x n.
Proof. induction n as [|n IH]; [reflexivity|]. cbn [repeat rev]. rewrite IH. clear IH. induction n as [|n IH]; [reflexivity|]. cbn. rewrite IH. reflexivity. Qed.
Lemma strip_pad s : edge_ok s -> edge_ok (rev s) -> strip (pad s) = s.
Proof.
  intros H1 H2. unfold strip, pad. assert (E : drop_blank (s ++ repeat 32 (80 - length s)) = s ++ repeat 32 (80 - length s)) by (destruct s as [|b s]; [destruct H1|]; cbn in H1 |- *; rewrite H1; reflexivity).
  rewrite E, rev_app_distr, rev_repeat, drop_blanks, drop_ok by exact H2. apply rev_involutive.
Qed.
Lemma head_length r : valid r -> length (head r) = (12 + 4 * length (dims r) + 160)%nat.
Proof. intros (_ & _ & _ & _ & _ & L & S & _). unfold head. rewrite !app_length, !num_length, nums_length, pad_length, S by exact L. lia. Qed.
Lemma enc_length r : valid r -> length (enc r) = (12 + 4 * length (dims r) + 160 + 4 * length (data r))%nat.
Proof. intros V. unfold enc. rewrite app_length, head_length by exact V. rewrite words_length by apply V. reflexivity. Qed.
Definition found (r : rec) (pos : nat) : list byte * meta := (name r, Meta (little r) (length (head r)) (dims r) (length (data r)) (length (enc r)) pos).
Lemma header a r b pos : valid r -> pos = length a -> read_header (a ++ enc r ++ b) pos = Some (found r pos).
Proof.
  intros V ->. unfold read_header. rewrite skip_exact by reflexivity. cbv zeta. pose proof V as (Hd & Hn & Hr & N1 & N2 & N3 & S & Hp & Hw). set (l := little r) in *. set (n := length (dims r)) in *.
  set (rest := concat (map (word l) (data r)) ++ b). set (nm := pad (name r)). set (ds := concat (map (num l) (dims r))).
  assert (E : enc r ++ b = num l 2 ++ num l (time r) ++ num l (Z.of_nat n) ++ ds ++ nm ++ stamp r ++ rest) by (unfold enc, head, rest, ds, nm, l, n; rewrite <- !app_assoc; reflexivity). rewrite E.
  assert (M : marker (num l 2 ++ num l (time r) ++ num l (Z.of_nat n) ++ ds ++ nm ++ stamp r ++ rest) = Some l). { unfold marker. rewrite first_exact by apply num_length. destruct l; reflexivity. } rewrite M.
  rewrite (skip_exact 4) by apply num_length.
  assert (E8 : skipn 8 (num l 2 ++ num l (time r) ++ num l (Z.of_nat n) ++ ds ++ nm ++ stamp r ++ rest) = num l (Z.of_nat n) ++ ds ++ nm ++ stamp r ++ rest) by (rewrite app_assoc; apply skip_exact; rewrite app_length, !num_length; reflexivity).
  assert (E12 : skipn 12 (num l 2 ++ num l (time r) ++ num l (Z.of_nat n) ++ ds ++ nm ++ stamp r ++ rest) = ds ++ nm ++ stamp r ++ rest) by (rewrite !app_assoc, <- (app_assoc (_ ++ _)), <- (app_assoc (_ ++ _)), <- !app_assoc; rewrite (app_assoc (num l 2)), (app_assoc (num l 2 ++ _)); apply skip_exact; rewrite !app_length, !num_length; reflexivity).
  rewrite E8. destruct (num_int l (time r) (num l (Z.of_nat n) ++ ds ++ nm ++ stamp r ++ rest)) as [z [-> _]]. destruct (num_int l (Z.of_nat n) (ds ++ nm ++ stamp r ++ rest)) as [z' [-> Hz]]. rewrite Hz by lia. rewrite Nat2Z.id, E12. unfold ds at 1, n at 1. rewrite ints_nums by exact Hr.
  assert (P : 1 <= Z.of_nat n) by (unfold n; destruct (dims r); [congruence|cbn [length]; lia]).
  assert (G : (Z.of_nat n <=? 0) || existsb (fun d => d <? 0) (dims r) = false). { apply orb_false_iff. split; [lia|]. destruct (existsb _ (dims r)) eqn:X; [|reflexivity]. apply existsb_exists in X as [d [Hd' X]]. specialize (Hr d Hd'). lia. } rewrite G.
  assert (EN : firstn 80 (skipn (12 + 4 * n) (num l 2 ++ num l (time r) ++ num l (Z.of_nat n) ++ ds ++ nm ++ stamp r ++ rest)) = nm).
  { rewrite (app_assoc (num l 2)), (app_assoc (num l 2 ++ _)), (app_assoc ((num l 2 ++ _) ++ _)). rewrite skip_exact by (rewrite !app_length, !num_length; unfold ds; rewrite nums_length; unfold n; lia). apply first_exact. unfold nm. apply pad_length, N3. }
  rewrite EN. unfold nm. rewrite strip_pad by assumption. assert (NE : name r <> []) by (destruct (name r); [destruct N1|discriminate]). unfold found. rewrite head_length, enc_length by exact V. fold l n. replace (Z.to_nat (prod (dims r))) with (length (data r)) by lia.
  destruct (name r) as [|c s]; [congruence|]. reflexivity.
Qed.
Lemma same_eq a b : same a b = true <-> a = b.
Proof. apply leqb_eq. Qed.
(** ** reading one field *)
Lemma ravel_snoc sh : forall d js j, length js = length sh -> ravel (sh ++ [d]) (js ++ [j]) = ravel sh js * d + j.
Proof.
  assert (P : forall l d, prod (l ++ [d]) = prod l * d) by (intros l d; unfold prod; induction l as [|x l IH]; cbn [app fold_right]; [lia|rewrite IH; lia]).
  induction sh as [|s sh IH]; intros d js j L; destruct js as [|i js]; try discriminate L; cbn [app ravel]; [cbn; lia|]. rewrite IH by (cbn in L; lia). rewrite P. ring.
Qed.
Lemma ravel_fortran ds : forall is, length is = length ds -> ravel (rev ds) (rev is) = fortran_pos ds is.
Proof.
  induction ds as [|d ds IH]; intros is L; destruct is as [|i is]; try discriminate L; [reflexivity|]. cbn [rev fortran_pos]. rewrite ravel_snoc by (rewrite !rev_length; cbn in L; lia). rewrite IH by (cbn in L; lia). ring.
Qed.
Lemma read_at a r b it : valid r -> i_pos it = length a ->
  read (a ++ enc r ++ b) it = if same (name r) (i_name it) && leqb (dims r) (i_dims it) then Some (ND (rev (dims r)) (fun js => nth (Z.to_nat (ravel (rev (dims r)) js)) (data r) [])) else None.
Proof.
  intros V P. unfold read. rewrite (header a r b _ V P). unfold found. cbn [m_little m_nelem m_pos m_header m_dims]. destruct (same (name r) (i_name it)); cbn [negb andb]; [|reflexivity].
  assert (E : skipn (i_pos it + length (head r)) (a ++ enc r ++ b) = concat (map (word (little r)) (data r)) ++ b) by (unfold enc; rewrite <- app_assoc, (app_assoc a); apply skip_exact; rewrite app_length; lia).
  rewrite E, words_data by apply V. destruct (leqb (dims r) (i_dims it)); reflexivity.
Qed.
(** Whatever else is in a file: if a field begins at the place where an item of the template says, what is read is the data of a field of this name and shape, or an error. *)
Theorem C93_sound : forall p r q it, valid r -> i_pos it = length p ->
  (i_name it = name r /\ i_dims it = dims r -> exists a, read (p ++ enc r ++ q) it = Some a /\ has_values a r) /\
  (~ (i_name it = name r /\ i_dims it = dims r) -> read (p ++ enc r ++ q) it = None).
Proof.
  intros p r q it V P. rewrite read_at by assumption. split.
  - intros [-> ->]. rewrite (proj2 (same_eq _ _) eq_refl), leqb_refl. cbn [andb]. eexists. split; [reflexivity|]. split; [reflexivity|]. intros is Hi. cbn [get]. rewrite ravel_fortran by (apply in_shape_len, Hi). reflexivity.
  - intros N. destruct (same (name r) (i_name it)) eqn:E1; [|reflexivity]. destruct (leqb (dims r) (i_dims it)) eqn:E2; [|reflexivity]. exfalso. apply N. apply same_eq in E1. apply leqb_eq in E2. split; symmetry; assumption.
Qed.
Print Assumptions C93_sound.
(** ** the list of the fields *)
Lemma file_app a b : file (a ++ b) = file a ++ file b.
Proof. unfold file. rewrite map_app, concat_app. reflexivity. Qed.
Lemma file_length l s : (forall r, In r l -> length (enc r) = s) -> length (file l) = (length l * s)%nat.
Proof. induction l as [|r l IH]; intros H; [reflexivity|]. change (file (r :: l)) with (enc r ++ file l). rewrite app_length, IH by (intros x Hx; apply H; right; exact Hx). rewrite (H r (or_introl eq_refl)). cbn [length]. lia. Qed.
Lemma at_end f pos : (length f <= pos)%nat -> read_header f pos = None.
Proof. intros H. unfold read_header. rewrite skipn_all2 by exact H. reflexivity. Qed.
Lemma seen_no nm l : ~ In nm (map fst l) -> seen nm l = false.
Proof. intros H. unfold seen. destruct (existsb _ l) eqn:E; [|reflexivity]. apply existsb_exists in E as [[n m] [Hi E]]. apply same_eq in E. exfalso. apply H. apply in_map_iff. exists (n, m). split; [symmetry; exact E|exact Hi]. Qed.
Definition items (s k : nat) (l : list rec) : list (list byte * meta) := map (fun p => found (snd p) (fst p * s)) (combine (seq k (length l)) l).
Lemma inquire_all s : forall todo done l fuel, (forall r, In r (done ++ todo) -> valid r /\ length (enc r) = s) -> NoDup (map fst l ++ map name todo) -> (length todo < fuel)%nat ->
  inquire fuel (file (done ++ todo)) s (length done * s) l = l ++ items s (length done) todo.
Proof.
  induction todo as [|r todo IH]; intros done l fuel H D F; destruct fuel as [|fuel]; try (cbn in F; lia); cbn [inquire].
  - rewrite app_nil_r in *. rewrite at_end by (rewrite (file_length done s) by (intros x Hx; apply H, Hx); lia). cbn. symmetry. apply app_nil_r.
  - destruct (H r) as [V L]; [apply in_or_app; right; left; reflexivity|]. assert (Pd : (length done * s)%nat = length (file done)) by (symmetry; apply file_length; intros x Hx; apply H, in_or_app; left; exact Hx).
    assert (E : read_header (file (done ++ r :: todo)) (length done * s) = Some (found r (length done * s))) by (rewrite file_app; change (file (r :: todo)) with (enc r ++ file todo); apply header; assumption). rewrite E. unfold found at 1.
    assert (Ns : ~ In (name r) (map fst l)). { cbn [map] in D. apply NoDup_remove_2 in D. intros X. apply D. apply in_or_app. left. exact X. }
    rewrite (seen_no _ _ Ns). replace (done ++ r :: todo) with ((done ++ [r]) ++ todo) by (rewrite <- app_assoc; reflexivity). replace (length done * s + s)%nat with (length (done ++ [r]) * s)%nat by (rewrite app_length; cbn [length]; lia).
    rewrite IH.
    + unfold items. rewrite app_length. cbn [length]. replace (length done + 1)%nat with (S (length done)) by lia. cbn [seq combine map fst snd]. rewrite <- app_assoc. reflexivity.
    + intros x Hx. apply H. rewrite <- app_assoc in Hx. exact Hx.
    + rewrite map_app, <- app_assoc. exact D.
    + cbn [length] in F. lia.
Qed.
(** A file of fields of one size: all fields are found, each with its name and shape; and from this file, or from another file with fields of the same names and shapes, each is read as its own data. *)
Theorem C93_files : forall l l2 s, l <> [] -> (forall r, In r l -> valid r /\ length (enc r) = s) -> NoDup (map name l) -> (forall r, In r l2 -> valid r) -> map name l2 = map name l -> map dims l2 = map dims l ->
  exists t, template (file l) = Some t /\ length t = length l /\ forall i r2, nth_error l2 i = Some r2 ->
    exists it a, nth_error t i = Some it /\ i_name it = name r2 /\ i_dims it = dims r2 /\ read (file l2) it = Some a /\ has_values a r2.
Proof.
  intros l l2 s Hne H D V2 En Ed. unfold template. destruct l as [|r0 l0]; [congruence|]. destruct (H r0 (or_introl eq_refl)) as [V0 L0].
  pose proof (header [] r0 (file l0) 0 V0 eq_refl) as Hh. cbn [app] in Hh. change (file (r0 :: l0)) with (enc r0 ++ file l0) at 1. rewrite Hh. unfold found at 1. cbn [m_nbytes]. rewrite L0. set (l := r0 :: l0) in *.
  assert (Sp : (0 < s)%nat) by (rewrite <- L0, enc_length by exact V0; lia).
  assert (Fl : length (file l) = (length l * s)%nat) by (apply file_length; intros r Hr; apply H, Hr).
  pose proof (inquire_all s l [] [] (S (length (file l)))) as I. cbn [app length Nat.mul map] in I. rewrite I; [|exact H|exact D|rewrite Fl; nia]. eexists. split; [reflexivity|]. unfold items. rewrite map_map. split; [rewrite map_length, combine_length, seq_length; lia|].
  intros i r2 H2. assert (Ll : length l2 = length l) by (apply (f_equal (@length _)) in En; rewrite !map_length in En; exact En).
  assert (Hi : (i < length l2)%nat) by (apply nth_error_Some; congruence). destruct (nth_error l i) as [r|] eqn:Hr; [|apply nth_error_None in Hr; lia].
  assert (N12 : name r2 = name r) by (apply (f_equal (fun x => nth_error x i)) in En; rewrite !nth_error_map, H2, Hr in En; cbn in En; congruence). assert (D12 : dims r2 = dims r) by (apply (f_equal (fun x => nth_error x i)) in Ed; rewrite !nth_error_map, H2, Hr in Ed; cbn in Ed; congruence).
  assert (S2 : forall x, In x l2 -> length (enc x) = s).
  { intros x Hx. apply In_nth_error in Hx as [j Hj]. assert (Hjl : (j < length l2)%nat) by (apply nth_error_Some; congruence). destruct (nth_error l j) as [y|] eqn:Hy; [|apply nth_error_None in Hy; lia].
    assert (Dxy : dims x = dims y) by (apply (f_equal (fun z => nth_error z j)) in Ed; rewrite !nth_error_map, Hj, Hy in Ed; cbn in Ed; congruence). destruct (H y) as [Vy Ly]; [eapply nth_error_In; exact Hy|]. assert (Vx : valid x) by (apply V2; eapply nth_error_In; exact Hj).
    rewrite enc_length in Ly |- * by assumption. destruct Vx as (_ & _ & _ & _ & _ & _ & _ & Px & _). destruct Vy as (_ & _ & _ & _ & _ & _ & _ & Py & _). rewrite Dxy in *. lia. }
  assert (It : nth_error (map (fun p => Item (fst (found (snd p) (fst p * s))) (m_dims (snd (found (snd p) (fst p * s)))) (m_pos (snd (found (snd p) (fst p * s))))) (combine (seq 0 (length l)) l)) i = Some (Item (name r) (dims r) (i * s))).
  { rewrite nth_error_map. assert (C : forall (m : list rec) k j x, nth_error m j = Some x -> nth_error (combine (seq k (length m)) m) j = Some ((k + j)%nat, x)). { induction m as [|y m IHm]; intros k j x Hx; destruct j; cbn in Hx |- *; try discriminate Hx; [rewrite Nat.add_0_r; congruence|]. rewrite (IHm (S k) j x Hx). f_equal. f_equal. lia. }
    rewrite (C l 0%nat i r Hr). reflexivity. }
  exists (Item (name r) (dims r) (i * s)). apply nth_error_split in H2 as [p [q [E2 Lp]]]. destruct (C93_sound (file p) r2 (file q) (Item (name r) (dims r) (i * s))) as [S1 _]; [apply V2; rewrite E2; apply in_or_app; right; left; reflexivity|cbn [i_pos]; rewrite (file_length p s) by (intros x Hx; apply S2; rewrite E2; apply in_or_app; left; exact Hx); congruence|].
  destruct S1 as [a [Ea Ha]]; [cbn; split; congruence|]. exists a. split; [exact It|]. cbn [i_name i_dims]. split; [congruence|]. split; [congruence|]. split; [|exact Ha]. rewrite E2, file_app. change (file (r2 :: q)) with (enc r2 ++ file q). exact Ea.
Qed.
Print Assumptions C93_files.
(** But if the second field is longer than the first, the search goes on inside of it: where there is no mark of a field, it ends, and the fields after it are not found. *)
Theorem C93_sizes_refuted : forall r1 r2 rest, valid r1 -> valid r2 -> name r1 <> name r2 -> (length (enc r1) < length (enc r2))%nat ->
  firstn 4 (skipn (length (enc r1)) (enc r2 ++ file rest)) <> num true 2 -> firstn 4 (skipn (length (enc r1)) (enc r2 ++ file rest)) <> num false 2 ->
  template (file (r1 :: r2 :: rest)) = Some [Item (name r1) (dims r1) 0; Item (name r2) (dims r2) (length (enc r1))].
Proof.
  intros r1 r2 rest V1 V2 N L M1 M2. change (file (r1 :: r2 :: rest)) with (enc r1 ++ enc r2 ++ file rest). unfold template. pose proof (header [] r1 (enc r2 ++ file rest) 0 V1 eq_refl) as H1. cbn [app] in H1. rewrite H1. unfold found at 1. cbn [m_nbytes].
  assert (F : exists k, S (length (enc r1 ++ enc r2 ++ file rest)) = S (S (S k))) by (rewrite !app_length; rewrite (enc_length r1 V1); eexists; rewrite !Nat.add_succ_l; reflexivity). destruct F as [k ->]. cbn [inquire]. rewrite H1. unfold found at 1. rewrite (seen_no (name r1) []) by (intros []). cbn [app Nat.add].
  rewrite (header (enc r1) r2 (file rest) (length (enc r1)) V2 eq_refl). unfold found at 1. assert (Sn : seen (name r2) [(name r1, Meta (little r1) (length (head r1)) (dims r1) (length (data r1)) (length (enc r1)) 0)] = false) by (apply seen_no; cbn; intros [X|[]]; congruence). rewrite Sn.
  assert (Hn : read_header (enc r1 ++ enc r2 ++ file rest) (length (enc r1) + length (enc r1)) = None).
  { unfold read_header. assert (E : skipn (length (enc r1) + length (enc r1)) (enc r1 ++ enc r2 ++ file rest) = skipn (length (enc r1)) (enc r2 ++ file rest)) by (rewrite skipn_app, skipn_all2 by apply Nat.le_add_r; cbn [app]; rewrite Nat.add_sub; reflexivity). rewrite E. cbv zeta. unfold marker. set (m := firstn 4 _) in *. change (num true 2) with [2; 0; 0; 0] in M1. change (num false 2) with [0; 0; 0; 2] in M2.
    assert (X : match m with [2; 0; 0; 0] => Some true | [0; 0; 0; 2] => Some false | _ => None end = @None bool).
    { destruct m as [|a [|b [|c [|d [|e m]]]]]; try (destruct a as [|[| |]|]; try reflexivity). all: try reflexivity. all: repeat (match goal with |- context [match ?x with _ => _ end] => is_var x; destruct x; try reflexivity end). all: exfalso; first [apply M1; reflexivity|apply M2; reflexivity]. }
    rewrite X. reflexivity. }
  rewrite Hn. reflexivity.
Qed.
Print Assumptions C93_sizes_refuted.

(** Non-vacuity *)
Definition ex_rec (l : bool) (c v : Z) (ds : list Z) (k : nat) : rec := Rec l 60 ds [c] (repeat 32 80) (map (fun i => [v; 0; 0; Z.of_nat i]) (seq 0 k)).
Lemma ex_valid l c v a b : blank c = false -> 0 <= a < 100 -> 0 <= b < 100 -> valid (ex_rec l c v [a; b] (Z.to_nat (a * b))).
Proof.
  intros Hc Ha Hb. unfold valid. cbn [dims name stamp data ex_rec rev app edge_ok]. split; [discriminate|]. split; [cbn; lia|]. split; [intros d [<-|[<-|[]]]; lia|]. split; [exact Hc|]. split; [exact Hc|]. split; [cbn; lia|]. split; [apply repeat_length|]. split.
  - rewrite map_length, seq_length. cbn [prod fold_right]. rewrite Z2Nat.id by nia. unfold prod. cbn [fold_right]. lia.
  - intros w Hw. apply in_map_iff in Hw as [i [<- _]]. reflexivity.
Qed.
Example C93_case : template (file [ex_rec true 112 1 [3; 2] 6; ex_rec false 113 2 [2; 3] 6]) = Some [Item [112] [3; 2] 0; Item [113] [2; 3] 204].
Proof. vm_compute. reflexivity. Qed.
Example C93_case_sizes : option_map (@length item) (template (file [ex_rec true 112 1 [1; 2] 2; ex_rec true 113 2 [2; 3] 6; ex_rec true 114 2 [1; 2] 2])) = Some 2%nat.
Proof. vm_compute. reflexivity. Qed.
Example C93_case_sound : valid (ex_rec false 113 2 [2; 3] 6).
Proof. apply (ex_valid false 113 2 2 3); [reflexivity|lia|lia]. Qed.
