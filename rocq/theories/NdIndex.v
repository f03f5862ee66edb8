(** numpy basic indexing of n-dimensional arrays: independent specification. *)
From Verif Require Export FwdSliceModel.
Open Scope Z_scope.

(** an n-d array: its shape and the value at every index vector *)
Record nd (A : Type) := ND { shape : list Z; get : list Z -> A }.
Arguments ND {A} _ _. Arguments shape {A} _. Arguments get {A} _ _.

Definition in_shape (sh js : list Z) : Prop := Forall2 (fun L j => 0 <= j < L) sh js.

(** arrays are equal when they have the same shape and the same elements *)
Definition nd_eq {A} (a b : nd A) : Prop :=
  shape a = shape b /\ forall js, in_shape (shape a) js -> get a js = get b js.

(** one axis of a basic index, resolved against the array's shape *)
Inductive axis := ASel (is : list Z) | AFix (i : Z) | ANew.

(** [None]: IndexError / ValueError raised by numpy *)
Fixpoint resolve (es : list entry) (sh : list Z) : option (list axis) :=
  match es with
  | [] => Some (map (fun L => ASel (prog 0 1 (Z.to_nat L))) sh)
  | ENew :: es' => option_map (cons ANew) (resolve es' sh)
  | ESlice s :: es' =>
      match sh with
      | [] => None
      | L :: sh' => match sel L s, resolve es' sh' with
                    | Some is, Some r => Some (ASel is :: r)
                    | _, _ => None
                    end
      end
  | EInt i :: es' =>
      match sh with
      | [] => None
      | L :: sh' =>
          if (- L <=? i) && (i <? L)
          then option_map (cons (AFix (if i <? 0 then i + L else i))) (resolve es' sh')
          else None
      end
  end.

Fixpoint out_shape (axs : list axis) : list Z :=
  match axs with
  | [] => []
  | ASel is :: r => Z.of_nat (length is) :: out_shape r
  | AFix _ :: r => out_shape r
  | ANew :: r => 1 :: out_shape r
  end.

(** the index vector of the source read for index vector [js] of the result *)
Fixpoint src_idx (axs : list axis) (js : list Z) : list Z :=
  match axs with
  | [] => []
  | AFix i :: r => i :: src_idx r js
  | ASel is :: r => match js with
                    | j :: js' => nth (Z.to_nat j) is 0 :: src_idx r js'
                    | [] => []
                    end
  | ANew :: r => match js with _ :: js' => src_idx r js' | [] => [] end
  end.

(** [a[tuple(es)]] *)
Definition nd_index {A} (a : nd A) (es : list entry) : option (nd A) :=
  match resolve es (shape a) with
  | None => None
  | Some axs => Some (ND (out_shape axs) (fun js => get a (src_idx axs js)))
  end.

(** [a] with the flagged axes reversed, [a[::-1, ..., ::]] *)
Fixpoint flip_idx (sh : list Z) (revs : list bool) (is : list Z) : list Z :=
  match sh, revs, is with
  | L :: sh', r :: revs', i :: is' => (if r then L - 1 - i else i) :: flip_idx sh' revs' is'
  | _, _, _ => is
  end.
Definition nd_flip {A} (revs : list bool) (a : nd A) : nd A :=
  ND (shape a) (fun is => get a (flip_idx (shape a) revs is)).
