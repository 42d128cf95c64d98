(** Utilities shared by the model: the fault monad, vectors with checked access,
    ranges, sorting, std::lower_bound.  Nothing here is specific to KMCLib. *)
From Coq Require Export List ZArith Lia Bool Permutation.
Export ListNotations.
Open Scope Z_scope.

(** ** Faults
    [None] is the outcome "undefined behaviour or uncaught exception in the backend":
    out-of-bounds access, reading past the end of a vector, thrown std::runtime_error. *)
Definition obind {A B} (x : option A) (f : A -> option B) : option B :=
  match x with Some a => f a | None => None end.
Notation "x <- e ;; k" := (obind e (fun x => k))
  (at level 100, e at next level, right associativity).

Definition oguard (b : bool) : option unit := if b then Some tt else None.

Fixpoint omap {A B} (f : A -> option B) (l : list A) : option (list B) :=
  match l with
  | [] => Some []
  | a :: l' => b <- f a ;; bs <- omap f l' ;; Some (b :: bs)
  end.

Fixpoint ofold {A S} (f : S -> A -> option S) (l : list A) (s : S) : option S :=
  match l with
  | [] => Some s
  | a :: l' => s' <- f s a ;; ofold f l' s'
  end.

(** ** Vectors: checked access with integer indices *)
Definition zlen {A} (l : list A) : Z := Z.of_nat (length l).

Definition zget {A} (l : list A) (i : Z) : option A :=
  if i <? 0 then None else nth_error l (Z.to_nat i).

Fixpoint upd_nat {A} (l : list A) (n : nat) (v : A) : list A :=
  match l, n with
  | [], _ => []
  | _ :: l', O => v :: l'
  | a :: l', S n' => a :: upd_nat l' n' v
  end.

Definition zset {A} (l : list A) (i : Z) (v : A) : option (list A) :=
  if (0 <=? i) && (i <? zlen l) then Some (upd_nat l (Z.to_nat i) v) else None.

(** [zseq lo n] = lo, lo+1, ..., lo+n-1; [zrange lo hi] = lo..hi inclusive. *)
Fixpoint zseq (lo : Z) (n : nat) : list Z :=
  match n with O => [] | S n' => lo :: zseq (lo + 1) n' end.
Definition zrange (lo hi : Z) : list Z := zseq lo (Z.to_nat (hi - lo + 1)).

Definition zsum (l : list Z) : Z := fold_right Z.add 0 l.

Definition zmem (x : Z) (l : list Z) : bool := existsb (Z.eqb x) l.

(** ** Sorting with a comparison [lt] (stable insertion sort) *)
Section Sort.
  Context {A : Type} (lt : A -> A -> bool).
  Fixpoint sinsert (a : A) (l : list A) : list A :=
    match l with
    | [] => [a]
    | b :: l' => if lt b a then b :: sinsert a l' else a :: l
    end.
  Definition isort (l : list A) : list A := fold_right sinsert [] l.
End Sort.

(** std::unique: drop elements equal to their predecessor. *)
Fixpoint zuniq (l : list Z) : list Z :=
  match l with
  | [] => []
  | a :: l' => match l' with
               | [] => [a]
               | b :: _ => if a =? b then zuniq l' else a :: zuniq l'
               end
  end.

(** std::lower_bound as in libstdc++: [below] is [comp(element, value)].
    Returns the number of elements skipped. *)
Fixpoint lower_bound_fuel {A} (below : A -> bool) (l : list A) (first len : Z) (fuel : nat) : option Z :=
  match fuel with
  | O => None
  | S fuel' =>
      if 0 <? len then
        let half := len / 2 in
        a <- zget l (first + half) ;;
        if below a then lower_bound_fuel below l (first + half + 1) (len - half - 1) fuel'
        else lower_bound_fuel below l first half fuel'
      else Some first
  end.
Definition lower_bound {A} (below : A -> bool) (l : list A) : option Z :=
  lower_bound_fuel below l 0 (zlen l) (S (length l)).
