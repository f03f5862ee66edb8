(** C87: searches by path in nested hierarchies find what matches. *)
From Verif Require Import PathModel.
From Coq Require Import Ascii List Bool Arith Lia.
Import ListNotations.

(** ** what matches *)
(** A path matches a list of patterns: where an item is called as the pattern itself, it is that item; else any item or attribute whose name matches. *)
Inductive reaches (glob : name -> name -> bool) : node -> list name -> list name -> node -> Prop :=
| R_here d : reaches glob d [] [] d
| R_exact before s c after attrs segs path v : ~ In s (map fst before) -> reaches glob c segs path v -> reaches glob (Dict (before ++ (s, c) :: after) attrs) (s :: segs) (s :: path) v
| R_match items attrs s k c segs path v : ~ In s (map fst items) -> In (k, c) (items ++ attrs) -> glob k s = true -> reaches glob c segs path v -> reaches glob (Dict items attrs) (s :: segs) (k :: path) v.
(** A location: the patterns between slashes; slashes at the ends do not count. *)
Definition plain (s : name) : Prop := s <> [] /\ ~ In "/"%char s.
Definition location (a : nat) (segs : list name) (b : nat) : name := repeat "/"%char a ++ join segs ++ repeat "/"%char b.
Definition no_item (d : node) (k : name) : Prop := match d with Value _ => True | Dict items _ => ~ In k (map fst items) end.

(** ** text *)
Lemma slash_true c : is_slash c = true <-> c = "/"%char.
Proof. unfold is_slash. destruct (ascii_dec c "/"); split; intros H; congruence. Qed.
Lemma lstrip_slashes n s : lstrip (repeat "/"%char n ++ s) = lstrip s.
Proof. induction n as [|n IH]; [reflexivity|]. cbn [repeat app lstrip]. exact IH. Qed.
Lemma lstrip_plain c s : c <> "/"%char -> lstrip (c :: s) = c :: s.
Proof. intros H. cbn [lstrip]. destruct (is_slash c) eqn:E; [apply slash_true in E; contradiction|reflexivity]. Qed.
Lemma join_cons p q r : join (p :: q :: r) = p ++ "/"%char :: join (q :: r).
Proof. reflexivity. Qed.
Lemma join_head segs : segs <> [] -> Forall plain segs -> exists c s, join segs = c :: s /\ c <> "/"%char.
Proof.
  intros H F. destruct segs as [|p ps]; [contradiction|]. inversion F as [|? ? (Hp & Hs) _]; subst. destruct p as [|c p]; [contradiction|]. destruct ps as [|q ps].
  - exists c, p. split; [reflexivity|]. intros ->. apply Hs. now left.
  - exists c, (p ++ "/"%char :: join (q :: ps)). split; [reflexivity|]. intros ->. apply Hs. now left.
Qed.
Lemma join_last segs : segs <> [] -> Forall plain segs -> exists s c, join segs = s ++ [c] /\ c <> "/"%char.
Proof.
  induction segs as [|p ps IH]; intros H F; [contradiction|]. inversion F as [|? ? (Hp & Hs) F']; subst. destruct ps as [|q ps].
  - destruct (exists_last Hp) as (s & c & E). exists s, c. split; [exact E|]. intros ->. apply Hs. rewrite E. apply in_or_app. right. now left.
  - destruct (IH ltac:(discriminate) F') as (s & c & E & Hc). exists (p ++ "/"%char :: s), c. split; [|exact Hc]. rewrite join_cons, E, <- app_assoc. reflexivity.
Qed.
Lemma rev_repeat {A} (x : A) n : rev (repeat x n) = repeat x n.
Proof. induction n as [|n IH]; [reflexivity|]. cbn [repeat rev]. rewrite IH. clear. induction n as [|n IH]; [reflexivity|]. cbn [repeat app]. rewrite IH. reflexivity. Qed.
Lemma strip_location a segs b : segs <> [] -> Forall plain segs -> strip (location a segs b) = join segs.
Proof.
  intros H F. unfold strip, location. rewrite lstrip_slashes. destruct (join_head segs H F) as (c & s & E & Hc). rewrite E. cbn [app]. rewrite lstrip_plain by exact Hc.
  change (c :: s ++ repeat "/"%char b) with ((c :: s) ++ repeat "/"%char b). rewrite <- E. rewrite rev_app_distr, rev_repeat, lstrip_slashes. destruct (join_last segs H F) as (s' & c' & E' & Hc'). rewrite E', rev_app_distr. cbn [rev app]. rewrite lstrip_plain by exact Hc'. cbn [rev]. rewrite rev_involutive. reflexivity.
Qed.
Lemma split_plain p : ~ In "/"%char p -> split_slash p = [p].
Proof. induction p as [|c p IH]; intros H; [reflexivity|]. cbn [split_slash]. destruct (is_slash c) eqn:E; [apply slash_true in E; exfalso; apply H; now left|]. rewrite IH by (intros I; apply H; now right). reflexivity. Qed.
Lemma split_app p r : ~ In "/"%char p -> split_slash (p ++ "/"%char :: r) = p :: split_slash r.
Proof.
  induction p as [|c p IH]; intros H; [reflexivity|]. cbn [app split_slash]. destruct (is_slash c) eqn:E; [apply slash_true in E; exfalso; apply H; now left|]. rewrite IH by (intros I; apply H; now right). reflexivity.
Qed.
Lemma split_join segs : segs <> [] -> Forall plain segs -> split_slash (join segs) = segs.
Proof.
  induction segs as [|p ps IH]; intros H F; [contradiction|]. inversion F as [|? ? (Hp & Hs) F']; subst. destruct ps as [|q ps]; [apply split_plain; exact Hs|].
  rewrite join_cons, split_app by exact Hs. f_equal. apply IH; [discriminate|exact F'].
Qed.

(** ** search *)
Definition candidates (glob : name -> name -> bool) (first : bool) (d : node) (s : name) : list (name * node) :=
  match index d s with Some c => [(s, c)] | None => let l := filter (fun kc => glob (fst kc) s) (children d) in if first then firstn 1 l else l end.
Fixpoint listing (glob : name -> name -> bool) (first : bool) (segs : list name) (d : node) : list (node * list name) :=
  match segs with [] => [(d, [])] | s :: r => flat_map (fun kc => map (fun vp => (fst vp, fst kc :: snd vp)) (listing glob first r (snd kc))) (candidates glob first d s) end.
Definition ended (path : list name) (vp : node * list name) : search := (fst vp, [], path ++ snd vp).
Lemma flat_map_map {A B C} (f : B -> list C) (g : A -> B) l : flat_map f (map g l) = flat_map (fun x => f (g x)) l.
Proof. induction l as [|x l IH]; [reflexivity|]. cbn [map flat_map]. rewrite IH. reflexivity. Qed.
Lemma flat_map_flat_map {A B C} (f : B -> list C) (g : A -> list B) l : flat_map f (flat_map g l) = flat_map (fun x => flat_map f (g x)) l.
Proof. induction l as [|x l IH]; [reflexivity|]. cbn [flat_map]. rewrite flat_map_app, IH. reflexivity. Qed.
Lemma map_flat_map {A B C} (f : B -> C) (g : A -> list B) l : map f (flat_map g l) = flat_map (fun x => map f (g x)) l.
Proof. induction l as [|x l IH]; [reflexivity|]. cbn [flat_map]. rewrite map_app, IH. reflexivity. Qed.
Lemma advance_eq glob first d s r path : advance glob first (d, s :: r, path) = map (fun kc => (snd kc, r, path ++ [fst kc])) (candidates glob first d s).
Proof. unfold advance, candidates. destruct (index d s); [reflexivity|]. reflexivity. Qed.
Lemma loop_ok glob first : forall segs fuel (l : list (node * list name)), length segs < fuel ->
  loop glob fuel first (map (fun x => (fst x, segs, snd x)) l) = flat_map (fun x => map (ended (snd x)) (listing glob first segs (fst x))) l.
Proof.
  induction segs as [|s r IH]; intros fuel l Hf; destruct fuel as [|fuel]; cbn [length] in Hf; try lia; cbn [loop].
  - replace (pending (map (fun x => (fst x, [], snd x)) l)) with false by (clear; induction l as [|x l IH]; [reflexivity|exact IH]).
    cbn [listing map]. unfold ended. cbn [fst snd]. induction l as [|x l IH]; [reflexivity|]. cbn [map flat_map]. rewrite app_nil_r, IH. reflexivity.
  - destruct l as [|x l]; [reflexivity|]. set (l' := x :: l). replace (pending (map (fun x => (fst x, s :: r, snd x)) l')) with true by reflexivity.
    rewrite flat_map_map. set (l2 := flat_map (fun x => map (fun kc => (snd kc, snd x ++ [fst kc])) (candidates glob first (fst x) s)) l').
    assert (E : flat_map (fun x0 => advance glob first (fst x0, s :: r, snd x0)) l' = map (fun x => (fst x, r, snd x)) l2).
    { unfold l2. rewrite map_flat_map. apply flat_map_ext. intros y. rewrite advance_eq, map_map. reflexivity. }
    rewrite E, IH by lia. unfold l2. rewrite flat_map_flat_map. apply flat_map_ext. intros y. rewrite flat_map_map. cbn [fst snd listing]. rewrite map_flat_map. apply flat_map_ext. intros kc. rewrite map_map. apply map_ext. intros vp.
    unfold ended. cbn [fst snd]. rewrite <- app_assoc. reflexivity.
Qed.
Lemma resolve_listing glob d a segs b first : segs <> [] -> Forall plain segs -> no_item d (location a segs b) ->
  resolve glob d (location a segs b) first = match map (fun vp => (fst vp, join (snd vp))) (listing glob first segs d) with [] => None | x :: r => Some (if first then [x] else x :: r) end.
Proof.
  intros Hs Hp Hn. unfold resolve. assert (I : index d (location a segs b) = None).
  { destruct d as [v|items attrs]; [reflexivity|]. cbn [index]. cbn [no_item] in Hn. induction items as [|(k, c) items IH]; [reflexivity|]. cbn [lookup]. destruct (name_eq k _) as [->|N]; [exfalso; apply Hn; now left|]. apply IH. intros Q. apply Hn. now right. }
  rewrite I, strip_location, split_join by assumption. pose proof (loop_ok glob first segs (S (length segs)) [(d, [])] ltac:(lia)) as L. cbn [map flat_map fst snd] in L. rewrite app_nil_r in L. rewrite L.
  rewrite map_map. unfold ended. cbn [app]. reflexivity.
Qed.
Lemma lookup_split k : forall l, match lookup k l with Some c => exists b a, l = b ++ (k, c) :: a /\ ~ In k (map fst b) | None => ~ In k (map fst l) end.
Proof.
  induction l as [|(k', c) l IH]; [intros []|]. cbn [lookup]. destruct (name_eq k' k) as [->|N]; [exists [], l; split; [reflexivity|intros []]|].
  destruct (lookup k l) as [v|]; [destruct IH as (b & a & -> & Hb); exists ((k', c) :: b), a; split; [reflexivity|]; intros [E|E]; [contradiction|exact (Hb E)]|]. intros [E|E]; [contradiction|exact (IH E)].
Qed.
Lemma lookup_here b k c a : ~ In k (map fst b) -> lookup k (b ++ (k, c) :: a) = Some c.
Proof. induction b as [|(k', c') b IH]; intros H; cbn [app lookup]; [destruct (name_eq k k); [reflexivity|contradiction]|]. destruct (name_eq k' k) as [->|N]; [exfalso; apply H; now left|]. apply IH. intros I. apply H. now right. Qed.
Lemma lookup_none k l : ~ In k (map fst l) -> lookup k l = None.
Proof. intros H. pose proof (lookup_split k l) as L. destruct (lookup k l); [|reflexivity]. destruct L as (b & a & -> & _). exfalso. apply H. rewrite map_app. apply in_or_app. right. now left. Qed.
Lemma listing_reaches glob : forall segs d v p, In (v, p) (listing glob false segs d) <-> reaches glob d segs p v.
Proof.
  induction segs as [|s r IH]; intros d v p; cbn [listing].
  - split; [intros [E|[]]; injection E as <- <-; constructor|]. intros H. inversion H; subst. now left.
  - rewrite in_flat_map. split.
    + intros ((k, c) & Hc & Hm). apply in_map_iff in Hm as ((v', p') & E & Hv). cbn [fst snd] in *. injection E as <- <-. apply IH in Hv. unfold candidates in Hc. destruct d as [w|items attrs]; [destruct Hc|].
      cbn [index children] in Hc. pose proof (lookup_split s items) as L. destruct (lookup s items) as [c0|].
      * destruct Hc as [E|[]]. injection E as <- <-. destruct L as (b & a & -> & Hb). apply R_exact; assumption.
      * apply filter_In in Hc as (Hi & Hg). apply R_match with c; assumption.
    + intros H. inversion H; subst.
      * exists (s, c). split; [unfold candidates; cbn [index]; rewrite lookup_here by assumption; now left|]. apply in_map_iff. exists (v, path). split; [reflexivity|]. apply IH. assumption.
      * exists (k, c). split; [unfold candidates; cbn [index children]; rewrite lookup_none by assumption; apply filter_In; split; assumption|]. apply in_map_iff. exists (v, path). split; [reflexivity|]. apply IH. assumption.
Qed.
(** All that matches is found, with its path, and nothing else; nothing at all is a KeyError. *)
Theorem C87_all : forall glob d a segs b, segs <> [] -> Forall plain segs -> no_item d (location a segs b) ->
  exists found, (forall v p, In (v, p) found <-> reaches glob d segs p v) /\
  resolve glob d (location a segs b) false = match found with [] => None | _ => Some (map (fun vp => (fst vp, join (snd vp))) found) end /\
  find_items glob d (location a segs b) = match found with [] => None | _ => Some (map fst found) end.
Proof.
  intros glob d a segs b Hs Hp Hn. exists (listing glob false segs d). split; [intros v p; apply listing_reaches|]. unfold find_items. rewrite (resolve_listing glob d a segs b false Hs Hp Hn).
  destruct (listing glob false segs d) as [|x l]; [split; reflexivity|]. split; [reflexivity|]. cbn [map option_map]. rewrite map_map. reflexivity.
Qed.
Print Assumptions C87_all.
(** A key of the root that is the location as a whole comes first, even if it has slashes. *)
Theorem C87_whole_key : forall glob before k c after attrs first, ~ In k (map fst before) -> resolve glob (Dict (before ++ (k, c) :: after) attrs) k first = Some [(c, k)].
Proof. intros. unfold resolve. cbn [index]. rewrite lookup_here by assumption. reflexivity. Qed.
Print Assumptions C87_whole_key.
Lemma listing_first glob : forall segs d x l, listing glob true segs d = x :: l -> l = [] /\ exists r, listing glob false segs d = x :: r.
Proof.
  induction segs as [|s r IH]; intros d x l; cbn [listing]; [intros E; injection E as <- <-; split; [reflexivity|]; exists []; reflexivity|]. unfold candidates. destruct (index d s) as [c|].
  - cbn [flat_map fst snd]. rewrite !app_nil_r. destruct (listing glob true r c) as [|y ys] eqn:E; [discriminate|]. intros H. destruct (IH c y ys E) as (-> & rest & ->). cbn [map] in *. injection H as <- <-. split; [reflexivity|]. eexists. reflexivity.
  - destruct (filter _ (children d)) as [|(k, c) cs]; [discriminate|]. cbn [firstn flat_map fst snd]. rewrite app_nil_r. destruct (listing glob true r c) as [|y ys] eqn:E; [discriminate|]. intros H. destruct (IH c y ys E) as (-> & rest & ->). cbn [map app] in *. injection H as <- <-. split; [reflexivity|]. eexists. reflexivity.
Qed.
(** If a first match is found, it is the first of all matches. *)
Theorem C87_first : forall glob d a segs b v path, segs <> [] -> Forall plain segs -> no_item d (location a segs b) -> resolve glob d (location a segs b) true = Some [(v, path)] ->
  find_item glob d (location a segs b) = Some v /\ exists r, resolve glob d (location a segs b) false = Some ((v, path) :: r).
Proof.
  intros glob d a segs b v path Hs Hp Hn E. split; [unfold find_item; rewrite E; reflexivity|]. rewrite resolve_listing in * by assumption. destruct (listing glob true segs d) as [|x l] eqn:L; [discriminate|]. destruct (listing_first _ _ _ _ _ L) as (-> & r & ->).
  cbn [map] in *. injection E as E1 E2. exists (map (fun vp => (fst vp, join (snd vp))) r). rewrite <- E1, <- E2. reflexivity.
Qed.
Print Assumptions C87_first.
(** Refuted: the search for the first match gives up with the first child that matches one part of the pattern, and a match further on is a KeyError. *)
Theorem C87_first_refuted : forall glob a b p x v, plain p -> plain x -> p <> a -> p <> b -> glob a p = true -> glob b p = true ->
  let d := Dict [(a, Dict [] []); (b, Dict [(x, Value v)] [])] [] in no_item d (location 0 [p; x] 0) ->
  find_items glob d (location 0 [p; x] 0) = Some [Value v] /\ find_item glob d (location 0 [p; x] 0) = None.
Proof.
  intros glob a b p x v Pp Px Na Nb Ga Gb d Hn. assert (F : Forall plain [p; x]) by (constructor; [exact Pp|constructor; [exact Px|constructor]]). unfold find_items, find_item. rewrite !(resolve_listing glob d 0 [p; x] 0) by (try discriminate; assumption).
  assert (I : index d p = None) by (unfold d; cbn [index lookup]; destruct (name_eq a p); [congruence|]; destruct (name_eq b p); [congruence|reflexivity]).
  assert (X : index (Dict [(x, Value v)] []) x = Some (Value v)) by (cbn [index lookup]; destruct (name_eq x x); [reflexivity|contradiction]).
  assert (C : filter (fun kc => glob (fst kc) p) (children d) = [(a, Dict [] []); (b, Dict [(x, Value v)] [])]) by (unfold d; cbn [children app filter fst]; rewrite Ga, Gb; reflexivity).
  cbn [listing]. unfold candidates. rewrite I, C. cbn [firstn flat_map fst snd]. rewrite X. split; reflexivity.
Qed.
Print Assumptions C87_first_refuted.

Definition nm (l : list nat) : name := map ascii_of_nat l.
(* "*" matches all, a name itself *)
Definition star (k p : name) : bool := if name_eq p (nm [42]) then true else if name_eq k p then true else false.
Definition case_tree := Dict [(nm [97], Dict [(nm [120], Value 1); (nm [121], Value 2)] [(nm [120], Value 3)]); (nm [98], Dict [(nm [121], Value 4)] []); (nm [99], Value 5)] [(nm [100], Dict [] [(nm [120], Value 6)])].
(* */x finds a/x and, among the attributes, d/x; a/* the two items and the attribute of a *)
Example C87_case : find_items star case_tree (location 1 [nm [42]; nm [120]] 0) = Some [Value 1; Value 6] /\ find_items star case_tree (location 0 [nm [97]; nm [42]] 1) = Some [Value 1; Value 2; Value 3] /\
  find_item star case_tree (location 0 [nm [42]; nm [121]] 0) = Some (Value 2) /\ find_items star case_tree (location 0 [nm [42]; nm [122]] 0) = None /\ no_item case_tree (location 1 [nm [42]; nm [120]] 0) /\ Forall plain [nm [42]; nm [120]].
Proof.
  repeat (split; [reflexivity|]). split; [cbn; intuition discriminate|]. repeat constructor; try discriminate; cbn; intuition discriminate.
Qed.
