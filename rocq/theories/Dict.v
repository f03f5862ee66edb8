(** Python dictionaries as insertion ordered association lists (a specification
    of the builtin; keys are unique). *)
From Coq Require Export List ZArith Lia Bool. Export ListNotations.

Section Dict.
Context {K V : Type} (K_eq : forall a b : K, {a = b} + {a <> b}).

Definition dict := list (K * V).

(** d.get(k) *)
Fixpoint dget (d : dict) (k : K) : option V :=
  match d with
  | [] => None
  | (k', v) :: d' => if K_eq k k' then Some v else dget d' k
  end.

(** d[k] = v: an existing key keeps its place, a new one goes to the end *)
Fixpoint dset (d : dict) (k : K) (v : V) : dict :=
  match d with
  | [] => [(k, v)]
  | (k', v') :: d' => if K_eq k k' then (k, v) :: d' else (k', v') :: dset d' k v
  end.

(** del d[k] (no effect if absent; callers model the KeyError) *)
Fixpoint ddel (d : dict) (k : K) : dict :=
  match d with
  | [] => []
  | (k', v') :: d' => if K_eq k k' then d' else (k', v') :: ddel d' k
  end.

Definition dkeys (d : dict) : list K := map fst d.
Definition dvals (d : dict) : list V := map snd d.
Definition dmem (d : dict) (k : K) : bool := match dget d k with Some _ => true | None => false end.

Definition dwf (d : dict) : Prop := NoDup (dkeys d).

Lemma dget_In d k v : dget d k = Some v -> In (k, v) d.
Proof.
  induction d as [|[k' v'] d IH]; cbn; [discriminate|].
  destruct (K_eq k k') as [->|Hn]; [intros [= ->]; now left|]. intros H. right. now apply IH.
Qed.
Lemma dget_key d k v : dget d k = Some v -> In k (dkeys d).
Proof. intros H. apply dget_In in H. apply (in_map fst) in H. exact H. Qed.
Lemma dget_None d k : dget d k = None <-> ~ In k (dkeys d).
Proof.
  induction d as [|[k' v'] d IH]; cbn; [split; [intros _ []|reflexivity]|].
  destruct (K_eq k k') as [->|Hn].
  - split; [discriminate|]. intros H. elim H. now left.
  - rewrite IH. split; intros H; [intros [E|E]; [congruence|contradiction]|]. intros E. apply H. now right.
Qed.
Lemma dget_wf_In d k v : dwf d -> In (k, v) d -> dget d k = Some v.
Proof.
  unfold dwf. induction d as [|[k' v'] d IH]; cbn; [intros _ []|].
  intros Hnd [E|H].
  - injection E as -> ->. destruct (K_eq k k); [reflexivity|congruence].
  - apply NoDup_cons_iff in Hnd. destruct Hnd as [Hni Hnd]. destruct (K_eq k k') as [->|Hn].
    + elim Hni. apply (in_map fst) in H. exact H.
    + now apply IH.
Qed.

Lemma dget_dset d k v k' : dget (dset d k v) k' = if K_eq k' k then Some v else dget d k'.
Proof.
  induction d as [|[k0 v0] d IH]; cbn.
  - reflexivity.
  - destruct (K_eq k k0) as [->|Hn]; cbn.
    + destruct (K_eq k' k0); reflexivity.
    + rewrite IH. destruct (K_eq k' k0) as [->|Hn']; [|reflexivity].
      destruct (K_eq k0 k); [congruence|reflexivity].
Qed.
Lemma dget_ddel d k k' : dwf d -> dget (ddel d k) k' = if K_eq k' k then None else dget d k'.
Proof.
  unfold dwf. induction d as [|[k0 v0] d IH]; cbn; intros Hnd.
  - now destruct (K_eq k' k).
  - apply NoDup_cons_iff in Hnd. destruct Hnd as [Hni Hnd]. destruct (K_eq k k0) as [->|Hn]; cbn.
    + destruct (K_eq k' k0) as [->|]; [|reflexivity]. now apply dget_None.
    + rewrite IH by assumption. destruct (K_eq k' k0) as [->|Hn']; [|reflexivity].
      destruct (K_eq k0 k); [congruence|reflexivity].
Qed.
Lemma dset_keys d k v : dkeys (dset d k v) = if dmem d k then dkeys d else dkeys d ++ [k].
Proof.
  unfold dmem. induction d as [|[k0 v0] d IH]; cbn; [reflexivity|].
  destruct (K_eq k k0) as [->|Hn]; cbn; [reflexivity|].
  unfold dkeys in *. rewrite IH. now destruct (dget d k).
Qed.
Lemma ddel_keys_in d k x : dwf d -> (In x (dkeys (ddel d k)) <-> In x (dkeys d) /\ x <> k).
Proof.
  unfold dwf. induction d as [|[k0 v0] d IH]; cbn; intros Hnd; [tauto|].
  apply NoDup_cons_iff in Hnd. destruct Hnd as [Hni Hnd]. destruct (K_eq k k0) as [->|Hn]; cbn.
  - unfold dkeys in *. split; [intros H; split; [now right|]|].
    + intros ->. contradiction.
    + intros [[->|H] Hx]; [congruence|exact H].
  - unfold dkeys in *. rewrite IH by assumption. split.
    + intros [->|[H Hx]]; [split; [now left|congruence]|split; [now right|exact Hx]].
    + intros [[->|H] Hx]; [now left|right; now split].
Qed.
Lemma dset_wf d k v : dwf d -> dwf (dset d k v).
Proof.
  unfold dwf. intros H. rewrite dset_keys. unfold dmem. destruct (dget d k) eqn:E; [exact H|].
  apply dget_None in E.
  clear - H E. induction (dkeys d) as [|x l IH]; cbn; [repeat constructor; auto|].
  apply NoDup_cons_iff in H. destruct H as [Hx H]. constructor.
  - rewrite in_app_iff. intros [Hi|[->|[]]]; [contradiction|]. apply E. now left.
  - apply IH; [exact H|]. intros Hi. apply E. now right.
Qed.
Lemma ddel_wf d k : dwf d -> dwf (ddel d k).
Proof.
  unfold dwf. induction d as [|[k0 v0] d IH]; cbn; intros Hnd; [constructor|].
  pose proof Hnd as Hnd0. apply NoDup_cons_iff in Hnd. destruct Hnd as [Hni Hnd]. destruct (K_eq k k0) as [->|Hn]; [exact Hnd|].
  cbn. constructor; [|now apply IH]. intros H. apply (ddel_keys_in d k k0 Hnd) in H. tauto.
Qed.
Lemma dwf_nil : dwf [].
Proof. constructor. Qed.
End Dict.
Arguments dict : clear implicits.
