(** C95: the reader that is chosen for a file. *)
From Coq Require Import String Ascii List Bool Arith ZArith Lia ZifyBool ZifyNat.
From Verif Require Import SelTextModel SelTextProps LogProps DetectModel.
Import ListNotations.
Local Open Scope nat_scope.

(** ** specification *)
(** the classes below (and with) a class *)
Inductive below : kls -> kls -> Prop := below_self k : below k k | below_sub k s x : In s (k_subs k) -> below s x -> below k x.
(** [over r a b]: below r, class a comes before b: it is derived from b, or it is in a part of the tree defined later *)
Inductive over : kls -> kls -> kls -> Prop :=
| over_base r s a : In s (k_subs r) -> below s a -> over r a r
| over_later r l1 s1 l2 s2 l3 a b : k_subs r = (l1 ++ s1 :: l2 ++ s2 :: l3)%list -> below s2 a -> below s1 b -> over r a b
| over_in r s a b : In s (k_subs r) -> over s a b -> over r a b.
Definition part_of (w s : list ascii) : Prop := exists a b, s = (a ++ w ++ b)%list.
Definition named_like (w : list ascii) (k : kls) : Prop := part_of (map lower w) (map lower (k_name k)).
(** [k] is the best of the classes with [P] *)
Definition best (root : kls) (P : kls -> Prop) (k : kls) : Prop :=
  below root k /\ P k /\ forall x, below root x -> P x -> (k_prio x < k_prio k)%Z \/ (k_prio x = k_prio k /\ (x = k \/ over root k x)).

(** ** proofs *)
Lemma kls_ind_all (P : kls -> Prop) : (forall n p m l, Forall P l -> P (K n p m l)) -> forall k, P k.
Proof.
  intros H. fix F 1. intros [n p m l]. apply H. induction l as [|s r IH]; constructor; [apply F|exact IH].
Qed.
Definition each (l : list kls) : list kls := flat_map serialize (rev l).
Lemma serialize_eq k : serialize k = (each (k_subs k) ++ [k])%list.
Proof.
  destruct k as [n p m l]. cbn [serialize k_subs]. f_equal. unfold each. induction l as [|s r IH]; [reflexivity|]. cbn [rev]. rewrite flat_map_app. cbn [flat_map]. rewrite app_nil_r, <- IH. reflexivity.
Qed.
Lemma in_each x l : In x (each l) <-> exists s, In s l /\ In x (serialize s).
Proof. unfold each. rewrite in_flat_map. split; intros [s [H1 H2]]; exists s; (split; [|exact H2]); apply in_rev; [exact H1|rewrite rev_involutive; exact H1]. Qed.
Lemma in_serialize x : forall k, In x (serialize k) <-> below k x.
Proof.
  apply kls_ind_all. intros n p m l IH. rewrite serialize_eq. cbn [k_subs]. rewrite Forall_forall in IH. split.
  - intros H. apply in_app_or in H as [H|[<-|[]]]; [|constructor]. apply in_each in H as [s [Hs Hx]]. apply (below_sub _ s); [exact Hs|]. apply IH; assumption.
  - intros H. inversion H as [|k' s x' Hs Hb]; subst; [apply in_or_app; right; left; reflexivity|]. cbn [k_subs] in Hs. apply in_or_app. left. apply in_each. exists s. split; [exact Hs|]. apply IH; assumption.
Qed.
Lemma split_app {A} (l1 l2 a b : list A) (x : A) : (l1 ++ l2 = a ++ x :: b)%list -> (exists b', l1 = (a ++ x :: b')%list /\ b = (b' ++ l2)%list) \/ (exists a', l2 = (a' ++ x :: b)%list).
Proof.
  revert a. induction l1 as [|y l1 IH]; intros a E; cbn [app] in E; [right; exists a; exact E|]. destruct a as [|z a]; cbn [app] in E.
  - injection E as -> <-. left. exists l1. split; reflexivity.
  - injection E as -> E. destruct (IH a E) as [[b' [-> ->]]|[a' H]]; [left; exists b'; split; reflexivity|right; exists a'; exact H].
Qed.
Lemma order : forall r l1 a l2 b, serialize r = (l1 ++ a :: l2)%list -> In b l2 -> over r a b.
Proof.
  apply (kls_ind_all (fun r => forall l1 a l2 b, serialize r = (l1 ++ a :: l2)%list -> In b l2 -> over r a b)). intros n p m l IH l1 a l2 b E Hb. set (r := K n p m l) in *. rewrite serialize_eq in E. change (k_subs r) with l in E. rewrite Forall_forall in IH.
  apply split_app in E as [[b' [E ->]]|[a' E]].
  2:{ destruct a' as [|y a']; cbn [app] in E; injection E as <- E; [subst l2; destruct Hb|destruct a'; discriminate E]. }
  assert (Ha : exists s, In s l /\ In a (serialize s)) by (apply in_each; rewrite E; apply in_or_app; right; left; reflexivity).
  apply in_app_or in Hb as [Hb|[<-|[]]]. 2:{ destruct Ha as [s [Hs Ha]]. apply (over_base r s a Hs), in_serialize, Ha. }
  clear Ha. assert (G : forall l', (forall s, In s l' -> In s l) -> forall l1 b', each l' = (l1 ++ a :: b')%list -> In b b' -> (exists s, In s l' /\ over s a b) \/ (exists u s1 v s2 w, l' = (u ++ s1 :: v ++ s2 :: w)%list /\ below s2 a /\ below s1 b)).
  { clear E Hb l1 b'. intros l'. induction l' as [|s l' IHl]; intros Sub l1 b' E Hb; [destruct l1; discriminate E|].
    assert (Es : each (s :: l') = (each l' ++ serialize s)%list) by (unfold each; cbn [rev]; rewrite flat_map_app; cbn [flat_map]; rewrite app_nil_r; reflexivity). rewrite Es in E. apply split_app in E as [[c [E ->]]|[a' E]].
    - apply in_app_or in Hb as [Hb|Hb].
      + destruct (IHl (fun x Hx => Sub x (or_intror Hx)) l1 c E Hb) as [[x [Hx Ho]]|(u & s1 & v & s2 & w & -> & H1 & H2)]; [left; exists x; split; [right; exact Hx|exact Ho]|right; exists (s :: u), s1, v, s2, w; repeat split; assumption].
      + assert (Ha : In a (each l')) by (rewrite E; apply in_or_app; right; left; reflexivity). apply in_each in Ha as [s2 [Hs2 Ha]]. apply in_split in Hs2 as [v [w ->]]. right. exists [], s, v, s2, w. repeat split; [apply in_serialize, Ha|apply in_serialize, Hb].
    - left. exists s. split; [left; reflexivity|]. apply (IH s (Sub s (or_introl eq_refl)) a' a b' b E Hb). }
  destruct (G l (fun s H => H) l1 b' E Hb) as [[s [Hs Ho]]|(u & s1 & v & s2 & w & El & H1 & H2)]; [apply (over_in r s); assumption|apply (over_later r u s1 v s2 w); assumption].
Qed.
(** sorting *)
Inductive desc : list kls -> Prop := desc_nil : desc [] | desc_cons x l : (forall y, In y l -> (k_prio y <= k_prio x)%Z) -> desc l -> desc (x :: l).
Lemma in_insert x y l : In y (insert x l) <-> y = x \/ In y l.
Proof. induction l as [|z l IH]; cbn [insert]; [cbn; intuition congruence|]. destruct (k_prio z <=? k_prio x)%Z; cbn [In]; [intuition congruence|]. rewrite IH. intuition congruence. Qed.
Lemma in_sort y l : In y (sort l) <-> In y l.
Proof. induction l as [|x l IH]; [reflexivity|]. cbn [sort In]. rewrite in_insert, IH. intuition congruence. Qed.
Lemma insert_desc x l : desc l -> desc (insert x l).
Proof.
  induction l as [|z l IH]; intros H; cbn [insert]; [constructor; [intros y []|constructor]|]. inversion H as [|z' l' Hz Hl]; subst. destruct (Z.leb_spec (k_prio z) (k_prio x)).
  - constructor; [|exact H]. intros y [<-|Hy]; [lia|]. specialize (Hz y Hy). lia.
  - constructor; [|apply IH, Hl]. intros y Hy. apply in_insert in Hy as [->|Hy]; [lia|apply Hz, Hy].
Qed.
Lemma sort_desc l : desc (sort l).
Proof. induction l as [|x l IH]; [constructor|]. cbn [sort]. apply insert_desc, IH. Qed.
Lemma insert_first x l : desc l -> (forall y, In y l -> (k_prio y <= k_prio x)%Z) -> insert x l = x :: l.
Proof. intros H G. destruct l as [|y l]; [reflexivity|]. cbn [insert]. specialize (G y (or_introl eq_refl)). destruct (Z.leb_spec (k_prio y) (k_prio x)); [reflexivity|lia]. Qed.
Lemma filter_desc P l : desc l -> desc (filter P l).
Proof. induction 1 as [|x l Hx Hl IH]; [constructor|]. cbn [filter]. destruct (P x); [|exact IH]. constructor; [|exact IH]. intros y Hy. apply filter_In in Hy as [Hy _]. apply Hx, Hy. Qed.
Lemma filter_insert P x l : desc l -> filter P (insert x l) = if P x then insert x (filter P l) else filter P l.
Proof.
  induction 1 as [|y l Hy Hl IH]; cbn [insert filter]; [destruct (P x); reflexivity|]. destruct (Z.leb_spec (k_prio y) (k_prio x)) as [Hle|Hgt].
  - cbn [filter]. destruct (P x) eqn:Px; [|reflexivity]. symmetry. destruct (P y) eqn:Py.
    + apply insert_first; [constructor; [|apply filter_desc, Hl]; intros z Hz; apply filter_In in Hz as [Hz _]; apply Hy, Hz|]. intros z [<-|Hz]; [exact Hle|]. apply filter_In in Hz as [Hz _]. specialize (Hy z Hz). lia.
    + apply insert_first; [apply filter_desc, Hl|]. intros z Hz. apply filter_In in Hz as [Hz _]. specialize (Hy z Hz). lia.
  - cbn [filter]. rewrite IH. destruct (P x) eqn:Px, (P y) eqn:Py; try reflexivity. cbn [insert]. destruct (Z.leb_spec (k_prio y) (k_prio x)); [lia|reflexivity].
Qed.
Lemma filter_sort P l : filter P (sort l) = sort (filter P l).
Proof. induction l as [|x l IH]; [reflexivity|]. cbn [sort filter]. rewrite filter_insert by apply sort_desc. rewrite IH. destruct (P x); reflexivity. Qed.
Lemma sort_head l k r : sort l = k :: r -> exists l1 l2, l = (l1 ++ k :: l2)%list /\ (forall y, In y l1 -> (k_prio y < k_prio k)%Z) /\ (forall y, In y l2 -> (k_prio y <= k_prio k)%Z).
Proof.
  revert k r. induction l as [|x l IH]; intros k r E; [discriminate E|]. cbn [sort] in E. pose proof (sort_desc l) as D. destruct (sort l) as [|y s] eqn:Es; cbn [insert] in E.
  - injection E as <- <-. exists [], l. split; [reflexivity|]. split; [intros y []|]. intros y Hy. apply in_sort in Hy. rewrite Es in Hy. destruct Hy.
  - destruct (Z.leb_spec (k_prio y) (k_prio x)); injection E as <- <-.
    + exists [], l. split; [reflexivity|]. split; [intros z []|]. intros z Hz. apply in_sort in Hz. rewrite Es in Hz. inversion D as [|y' s' Hy Hs]; subst. destruct Hz as [<-|Hz]; [exact H|]. specialize (Hy z Hz). lia.
    + destruct (IH y s eq_refl) as (l1 & l2 & -> & H1 & H2). exists (x :: l1), l2. split; [reflexivity|]. split; [|exact H2]. intros z [<-|Hz]; [exact H|apply H1, Hz].
Qed.
Lemma filter_split {A} (P : A -> bool) l l1 k l2 : filter P l = (l1 ++ k :: l2)%list -> exists s1 s2, l = (s1 ++ k :: s2)%list /\ filter P s1 = l1 /\ filter P s2 = l2.
Proof.
  revert l1. induction l as [|x l IH]; intros l1 E; cbn [filter] in E; [destruct l1; discriminate E|]. destruct (P x) eqn:Px.
  - destruct l1 as [|y l1]; cbn [app] in E; injection E as -> E; [exists [], l; repeat split; exact E|]. destruct (IH l1 E) as (s1 & s2 & -> & E1 & E2). exists (y :: s1), s2. cbn [filter]. rewrite Px, E1. repeat split. exact E2.
  - destruct (IH l1 E) as (s1 & s2 & -> & E1 & E2). exists (x :: s1), s2. cbn [filter]. rewrite Px. repeat split; assumption.
Qed.
Lemma head_best root P k r : sort (filter P (serialize root)) = k :: r -> best root (fun x => P x = true) k.
Proof.
  intros E. destruct (sort_head _ _ _ E) as (l1 & l2 & Ef & H1 & H2). destruct (filter_split _ _ _ _ _ Ef) as (s1 & s2 & Es & E1 & E2).
  assert (Hk : In k (filter P (serialize root))) by (rewrite Ef; apply in_or_app; right; left; reflexivity). apply filter_In in Hk as [Hk Pk]. split; [apply in_serialize, Hk|]. split; [exact Pk|]. intros x Hx Px.
  assert (I : In x (filter P (serialize root))) by (apply filter_In; split; [apply in_serialize, Hx|exact Px]). rewrite Ef in I. apply in_app_or in I as [I|[<-|I]]; [left; apply H1, I|right; split; [reflexivity|left; reflexivity]|].
  specialize (H2 x I). destruct (Z.eq_dec (k_prio x) (k_prio k)) as [e|n]; [|left; lia]. right. split; [exact e|]. right. apply (order root s1 k s2 x Es). rewrite <- E2 in I. apply filter_In in I as [I _]. exact I.
Qed.
(** text *)
Lemma prefix_spec w : forall s, prefix w s = true <-> exists b, s = (w ++ b)%list.
Proof.
  induction w as [|c w IH]; intros s; cbn [prefix]; [split; [exists s; reflexivity|reflexivity]|]. destruct s as [|d s]; [split; [discriminate|intros [b E]; discriminate E]|]. rewrite andb_true_iff, is_true, IH. split.
  - intros [-> [b ->]]. exists b. reflexivity.
  - intros [b E]. cbn in E. injection E as -> ->. split; [reflexivity|exists b; reflexivity].
Qed.
Lemma within_spec w s : within w s = true <-> part_of w s.
Proof.
  induction s as [|c s IH]; cbn [within]; rewrite orb_true_iff, prefix_spec.
  - split; [intros [[b E]|H]; [exists [], b; exact E|discriminate H]|]. intros [a [b E]]. left. destruct a; [exists b; exact E|discriminate E].
  - rewrite IH. split; [intros [[b E]|[a [b E]]]; [exists [], b; exact E|exists (c :: a), b; rewrite E; reflexivity]|]. intros [a [b E]]. destruct a as [|d a]; [left; exists b; exact E|right]. cbn in E. injection E as _ E. exists a, b. exact E.
Qed.
Lemma fold_first (P : kls -> bool) l : forall d, fold_left (fun ret c => if P c then c else ret) (rev l) d = match filter P l with [] => d | k :: _ => k end.
Proof. induction l as [|x l IH]; intros d; [reflexivity|]. cbn [rev filter]. rewrite fold_left_app. cbn [fold_left]. rewrite IH. destruct (P x); reflexivity. Qed.
(** The reader chosen for a name of a file accepts the name; of all that do it has the highest priority, and among those it is derived from the others or defined later. There is one just if some class accepts the name. *)
Theorem C95_detect : forall root f, match detect root f [] with Some k => best root (fun x => k_match x f = true) k | None => forall x, below root x -> k_match x f = false end.
Proof.
  intros root f. unfold detect. cbv zeta. destruct (sort (filter (fun k => k_match k f) (serialize root))) as [|k r] eqn:E; [|exact (head_best root (fun k => k_match k f) k r E)].
  intros x Hx. destruct (k_match x f) eqn:M; [|reflexivity]. exfalso. assert (I : In x (sort (filter (fun k => k_match k f) (serialize root)))) by (apply in_sort, filter_In; split; [apply in_serialize, Hx|exact M]). rewrite E in I. exact I.
Qed.
Print Assumptions C95_detect.
(** With a preferred word: the best of the classes with this word in the name (capitals do not count) if one of them accepts the file, else as without. *)
Theorem C95_prefer : forall root f w, let P x := k_match x f = true /\ named_like w x in
  ((exists x, below root x /\ P x) -> exists k, detect root f w = Some k /\ best root P k) /\ ((forall x, below root x -> ~ P x) -> detect root f w = detect root f []).
Proof.
  intros root f w P. unfold detect. cbv zeta. set (l := filter (fun k => k_match k f) (serialize root)). set (Q := fun c => within (map lower w) (map lower (k_name c))).
  assert (PQ : forall x, P x <-> k_match x f = true /\ Q x = true) by (intros x; unfold P, Q, named_like; rewrite within_spec; reflexivity).
  assert (Hf : filter Q (sort l) = sort (filter (fun x => k_match x f && Q x) (serialize root))). { rewrite filter_sort. f_equal. unfold l. induction (serialize root) as [|x s IH]; [reflexivity|]. cbn [filter]. destruct (k_match x f) eqn:M; cbn [filter andb]; [destruct (Q x); rewrite IH; reflexivity|exact IH]. }
  assert (In1 : forall x, below root x -> P x -> In x (filter Q (sort l))) by (intros x Hx Px; rewrite Hf; apply in_sort, filter_In; split; [apply in_serialize, Hx|]; apply PQ in Px as [-> ->]; reflexivity).
  split.
  - intros [x [Hx Px]]. pose proof (In1 x Hx Px) as I. destruct (filter Q (sort l)) as [|k r] eqn:E; [destruct I|]. assert (B : best root P k). { destruct (head_best root (fun x => k_match x f && Q x) k r (eq_sym Hf)) as (B1 & B2 & B3). split; [exact B1|]. split; [apply PQ, andb_true_iff, B2|]. intros y Hy Py. apply B3; [exact Hy|]. apply andb_true_iff, PQ, Py. }
    exists k. split; [|exact B]. destruct (sort l) as [|h t] eqn:Es; [discriminate E|]. f_equal. destruct w as [|c w].
    + assert (Qa : forall c, Q c = true) by (intros c; apply within_spec; exists [], (map lower (k_name c)); reflexivity). cbn [filter] in E. rewrite Qa in E. congruence.
    + rewrite fold_first. fold Q. rewrite E. reflexivity.
  - intros N. destruct (sort l) as [|h t] eqn:Es; [reflexivity|]. f_equal. destruct w as [|c w]; [reflexivity|]. rewrite fold_first. fold Q. destruct (filter Q (h :: t)) as [|k r] eqn:E; [reflexivity|]. exfalso.
    assert (I : In k (filter Q (h :: t))) by (rewrite E; left; reflexivity). apply filter_In in I as [I Qk]. rewrite <- Es in I. apply (proj1 (in_sort _ _)) in I. unfold l in I. apply filter_In in I as [I Mk]. apply (N k); [apply in_serialize, I|]. apply PQ. split; assumption.
Qed.
Print Assumptions C95_prefer.
(** ** a reader by its name *)
(** the letters of a name: without blanks, _ and -, capitals as small letters *)
Definition letters (s : list ascii) : list ascii := map lower (filter (fun c => negb (existsb (is c) (chars " _-"))) s).
Definition file_word : list ascii := chars "file".
(** [s] with the first "file" left out is [t] *)
Definition without_file (s t : list ascii) : Prop :=
  (~ part_of file_word s /\ t = s) \/ exists a b, s = (a ++ file_word ++ b)%list /\ t = (a ++ b)%list /\ forall a1 a2, (a ++ file_word = a1 ++ file_word ++ a2)%list -> a2 = [].
Lemma drop_file_none s : ~ part_of file_word s -> drop_file s = s.
Proof.
  induction s as [|c s IH]; intros H; cbn [drop_file]; [reflexivity|]. destruct (prefix (chars "file") (c :: s)) eqn:E.
  - exfalso. apply H. apply prefix_spec in E as [b E]. exists [], b. exact E.
  - f_equal. apply IH. intros [a [b E']]. apply H. exists (c :: a), b. rewrite E'. reflexivity.
Qed.
Lemma drop_file_spec s t : without_file s t -> drop_file s = t.
Proof.
  intros [[H ->]|(a & b & -> & -> & H)]; [apply drop_file_none, H|]. induction a as [|c a IH]; [reflexivity|]. cbn [app drop_file]. destruct (prefix (chars "file") (c :: a ++ file_word ++ b)) eqn:E.
  - exfalso. apply prefix_spec in E as [r E]. assert (L : 4 <= length (c :: a ++ file_word)) by (cbn [length]; rewrite app_length; cbn; lia).
    assert (X : firstn 4 (c :: a ++ file_word) = file_word). { transitivity (firstn 4 ((c :: a ++ file_word) ++ b)); [rewrite firstn_app, (proj2 (Nat.sub_0_le _ _) L), firstn_O, app_nil_r; reflexivity|]. replace ((c :: a ++ file_word) ++ b)%list with (chars "file" ++ r)%list by (rewrite <- E; cbn [app]; rewrite <- app_assoc; reflexivity). reflexivity. }
    specialize (H [] (skipn 4 (c :: a ++ file_word))). assert (Y : skipn 4 (c :: a ++ file_word) = []) by (apply H; cbn [app]; rewrite <- X at 2; symmetry; apply (firstn_skipn 4 (c :: a ++ file_word))). apply (f_equal (@length _)) in Y. rewrite skipn_length in Y. cbn [length] in Y. rewrite app_length in Y. cbn in Y. lia.
  - f_equal. apply IH. intros a1 a2 E2. apply (H (c :: a1) a2). cbn [app]. rewrite E2. reflexivity.
Qed.
Lemma clean_letters s : clean s = letters s.
Proof. unfold clean, letters. f_equal. apply filter_ext. intros c. f_equal. cbn [existsb chars list_ascii_of_string]. rewrite orb_false_r, orb_assoc. reflexivity. Qed.
Lemma clean_low s : Forall (fun c => lower c = c /\ negb (is c " " || is c "_" || is c "-") = true) s -> clean s = s.
Proof. unfold clean. induction 1 as [|c s [H1 H2] Hs IH]; [reflexivity|]. cbn [filter]. rewrite H2. cbn [map]. rewrite H1, IH. reflexivity. Qed.
Lemma clean_all s : Forall (fun c => lower c = c /\ negb (is c " " || is c "_" || is c "-") = true) (clean s).
Proof.
  unfold clean. apply Forall_forall. intros x Hx. apply in_map_iff in Hx as [c [<- Hc]]. apply filter_In in Hc as [_ Hc]. split; [apply lower_lower|]. assert (F : implb (negb (is c " " || is c "_" || is c "-")) (negb (is (lower c) " " || is (lower c) "_" || is (lower c) "-")) = true) by (clear Hc; revert c; apply for_all; vm_compute; reflexivity). rewrite Hc in F. exact F.
Qed.
Lemma resolve_find q : clean q = q -> drop_file q = q -> forall k, resolve k q = find (fun x => within q (drop_file (map lower (k_name x)))) (serialize k).
Proof.
  intros Hc Hd. apply kls_ind_all. intros n p m l IH. rewrite serialize_eq. cbn [resolve k_subs]. cbv zeta. rewrite Hc, Hd. set (P := fun x => within q (drop_file (map lower (k_name x)))).
  assert (Fa : forall u v, find P (u ++ v) = match find P u with Some x => Some x | None => find P v end) by (induction u as [|x u IHu]; intros v; [reflexivity|]; cbn [app find]; destruct (P x); [reflexivity|apply IHu]). rewrite Fa.
  assert (E : (fix each (l : list kls) : option kls := match l with [] => None | s :: r => match each r with Some x => Some x | None => resolve s q end end) l = find P (each l)).
  { induction IH as [|s r Hs Hr IHr]; [reflexivity|]. rewrite IHr. assert (Es : each (s :: r) = (each r ++ serialize s)%list) by (unfold each; cbn [rev]; rewrite flat_map_app; cbn [flat_map]; rewrite app_nil_r; reflexivity). rewrite Es, Fa, Hs. reflexivity. }
  rewrite E. destruct (find P (each l)); [reflexivity|]. cbn [find]. unfold P. cbn [k_name]. reflexivity.
Qed.
(** the searched word: the letters of the text without "file"; no second "file" in it *)
Definition word_of_type (ftype q : list ascii) : Prop := without_file (letters ftype) q /\ ~ part_of file_word q.
Definition fits (q : list ascii) (k : kls) : Prop := exists t, without_file (map lower (k_name k)) t /\ part_of q t.
Lemma without_ex s : exists t, without_file s t.
Proof.
  destruct (within file_word s) eqn:E.
  - apply within_spec in E as [a [b E]]. revert a b E. enough (G : forall n a b, length a <= n -> s = (a ++ file_word ++ b)%list -> exists t, without_file s t) by (intros a b E; exact (G (length a) a b (le_n _) E)).
    induction n as [|n IH]; intros a b L E.
    + destruct a; [|cbn in L; lia]. exists b. right. exists [], b. split; [exact E|]. split; [reflexivity|]. intros a1 a2 X. apply (f_equal (@length _)) in X. rewrite !app_length in X. destruct a2; [reflexivity|cbn in X; lia].
    + destruct (within file_word (removelast (a ++ file_word))) eqn:W.
      * apply within_spec in W as [a1 [a2 W]]. assert (NE : (a ++ file_word)%list <> []) by (intros X; apply app_eq_nil in X as [_ X]; discriminate X). pose proof (app_removelast_last " "%char NE) as R. rewrite W in R. set (z := last (a ++ file_word) " "%char) in *.
        apply (IH a1 (a2 ++ z :: b)%list). -- apply (f_equal (@length _)) in R. rewrite !app_length in R. cbn [length file_word chars list_ascii_of_string] in R. lia. -- rewrite E, app_assoc, R, <- !app_assoc. reflexivity.
      * exists (a ++ b)%list. right. exists a, b. split; [exact E|]. split; [reflexivity|]. intros a1 a2 X. destruct a2 as [|y a2]; [reflexivity|]. exfalso. assert (N : (y :: a2) <> []) by discriminate. destruct (exists_last N) as [u [z Eu]]. rewrite Eu in X. rewrite X in W. rewrite !app_assoc in W. rewrite removelast_last in W. assert (T : within file_word ((a1 ++ file_word) ++ u) = true) by (apply within_spec; exists a1, u; rewrite <- app_assoc; reflexivity). congruence.
  - exists s. left. split; [|reflexivity]. intros X. apply within_spec in X. congruence.
Qed.
Lemma fits_within q k : within q (drop_file (map lower (k_name k))) = true <-> fits q k.
Proof.
  rewrite within_spec. split.
  - intros H. destruct (without_ex (map lower (k_name k))) as [t T]. exists t. split; [exact T|]. rewrite <- (drop_file_spec _ _ T). exact H.
  - intros [t [T H]]. rewrite (drop_file_spec _ _ T). exact H.
Qed.
Lemma resolve_word root ftype q : word_of_type ftype q -> resolve root ftype = find (fun x => within q (drop_file (map lower (k_name x)))) (serialize root) /\ drop_file q = q.
Proof.
  intros [W N]. assert (Eq : drop_file (clean ftype) = q) by (rewrite clean_letters; apply drop_file_spec, W). assert (Dq : drop_file q = q) by (apply drop_file_none, N).
  assert (Cq : clean q = q). { apply clean_low. apply Forall_forall. intros c Hc. pose proof (clean_all ftype) as A. rewrite Forall_forall in A. apply A. rewrite clean_letters. destruct W as [[_ ->]|(a & b & -> & -> & _)]; [exact Hc|]. apply in_app_or in Hc as [Hc|Hc]; apply in_or_app; [left; exact Hc|right; apply in_or_app; right; exact Hc]. }
  assert (E : resolve root ftype = resolve root q) by (destruct root; cbn [resolve]; cbv zeta; rewrite Eq, Cq, Dq; reflexivity). split; [rewrite E; apply resolve_find; assumption|exact Dq].
Qed.
(** A reader asked for by name: its name has the word, and every other class with the word in its name is one it is derived from, or is in a part defined earlier; none is found just if no name has the word. *)
Theorem C95_resolve : forall root ftype q, word_of_type ftype q ->
  match resolve root ftype with Some k => below root k /\ fits q k /\ (forall x, below root x -> fits q x -> x = k \/ over root k x) | None => forall x, below root x -> ~ fits q x end.
Proof.
  intros root ftype q W0. destruct (resolve_word root ftype q W0) as [E0 _]. rewrite E0. set (P := fun x => within q (drop_file (map lower (k_name x)))).
  destruct (find P (serialize root)) as [k|] eqn:F.
  - assert (G : forall l, find P l = Some k -> exists l1 l2, l = (l1 ++ k :: l2)%list /\ P k = true /\ forall y, In y l1 -> P y = false). { induction l as [|y l IHl]; intros H; [discriminate H|]. cbn [find] in H. destruct (P y) eqn:Py; [injection H as ->; exists [], l; repeat split; [exact Py|intros z []]|]. destruct (IHl H) as (l1 & l2 & -> & H1 & H2). exists (y :: l1), l2. repeat split; [exact H1|]. intros z [<-|Hz]; [exact Py|apply H2, Hz]. }
    destruct (G _ F) as (l1 & l2 & Es & Pk & Hl). split; [apply in_serialize; rewrite Es; apply in_or_app; right; left; reflexivity|]. split; [apply fits_within, Pk|]. intros x Hx Fx. apply fits_within in Fx. apply in_serialize in Hx. rewrite Es in Hx. apply in_app_or in Hx as [Hx|[<-|Hx]]; [specialize (Hl x Hx); unfold P in Hl; congruence|left; reflexivity|right; apply (order root l1 k l2 x Es Hx)].
  - intros x Hx Fx. apply fits_within in Fx. apply in_serialize in Hx. pose proof (find_none P _ F x Hx) as X. unfold P in X. congruence.
Qed.
Print Assumptions C95_resolve.
(** So a class can not be asked for by its own name, if a class derived from it has this name as a part of its own: a derived class is found. *)
Theorem C95_exact_refuted : forall root l1 k l2 s q ftype, word_of_type ftype q -> k_subs root = (l1 ++ k :: l2)%list -> (forall s2 x, In s2 l2 -> below s2 x -> ~ fits q x) -> In s (k_subs k) -> fits q s -> exists r s', resolve root ftype = Some r /\ In s' (k_subs k) /\ below s' r.
Proof.
  intros root l1 k l2 s q ftype W Er N2 Hs Fs. destruct (resolve_word root ftype q W) as [-> _]. set (P := fun x => within q (drop_file (map lower (k_name x)))).
  assert (Fa : forall u v, find P (u ++ v) = match find P u with Some x => Some x | None => find P v end) by (induction u as [|x u IHu]; intros v; [reflexivity|]; cbn [app find]; destruct (P x); [reflexivity|apply IHu]).
  rewrite serialize_eq, Fa, Er. unfold each at 1. rewrite rev_app_distr. cbn [rev]. rewrite !flat_map_app, <- app_assoc, Fa. cbn [flat_map]. rewrite app_nil_r. fold (each l2).
  assert (F2 : find P (each l2) = None). { destruct (find P (each l2)) as [x|] eqn:F; [|reflexivity]. exfalso. apply find_some in F as [Hx Px]. apply in_each in Hx as [s2 [Hs2 Hx]]. apply (N2 s2 x Hs2 (proj1 (in_serialize x s2) Hx)). apply fits_within, Px. }
  rewrite F2, Fa, serialize_eq, Fa. destruct (find P (each (k_subs k))) as [x|] eqn:F.
  - apply find_some in F as [Hx _]. apply in_each in Hx as [s' [Hs' Hx]]. exists x, s'. split; [reflexivity|]. split; [exact Hs'|]. apply in_serialize, Hx.
  - exfalso. assert (I : In s (each (k_subs k))) by (apply in_each; exists s; split; [exact Hs|]; apply in_serialize; constructor). pose proof (find_none P _ F s I) as X. apply fits_within in Fs. unfold P in X. congruence.
Qed.
Print Assumptions C95_exact_refuted.

(** Non-vacuity: the readers of XDMF files *)
Definition ends (w : string) (t : list ascii) : bool := DetectModel.prefix (rev (chars w)) (rev t).
Definition ex_ggcm : kls := K (chars "GGCMFileXDMF") 0 (ends ".3df.xdmf") [].
Definition ex_athena : kls := K (chars "AthenaFileXDMF") 0 (ends ".athdf.xdmf") [].
Definition ex_xdmf : kls := K (chars "FileXDMF") 0 (ends ".xdmf") [ex_ggcm; ex_athena].
Definition ex_ascii : kls := K (chars "FileASCII") (-2) (ends ".txt") [].
Definition ex_root : kls := K (chars "VFile") 0 (fun _ => false) [ex_xdmf; ex_ascii].
Example C95_case : option_map k_name (detect ex_root (chars "run.3df.xdmf") []) = Some (chars "GGCMFileXDMF") /\ option_map k_name (detect ex_root (chars "run.3df.xdmf") (chars "filex")) = Some (chars "GGCMFileXDMF") /\ option_map k_name (detect ex_root (chars "a.xdmf") []) = Some (chars "FileXDMF") /\ option_map k_name (detect ex_root (chars "a.h5") []) = None.
Proof. vm_compute. repeat split. Qed.
Example C95_case_exact : option_map k_name (resolve ex_root (chars "File_XDMF")) = Some (chars "AthenaFileXDMF") /\ option_map k_name (resolve ex_root (chars "ascii")) = Some (chars "FileASCII").
Proof. vm_compute. repeat split. Qed.
Example C95_case_word : word_of_type (chars "File_XDMF") (chars "xdmf").
Proof.
  split; [right; exists [], (chars "xdmf"); split; [reflexivity|]; split; [reflexivity|]|].
  - intros a1 a2 E. apply (f_equal (@length _)) in E. rewrite !app_length in E. destruct a2; [reflexivity|cbn in E; lia].
  - intros X. apply within_spec in X. discriminate X.
Qed.
