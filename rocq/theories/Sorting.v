(** Stable sorts used by the library ([slice::sort_by_key], [sort_by],
    [itertools::sorted_by] are all stable). Model only; see P_Base for proofs. *)
From Coq Require Import List ZArith Bool.
Import ListNotations.

Section Isort.
  Context {A : Type} (leb : A -> A -> bool).

  Fixpoint insert (x : A) (l : list A) : list A :=
    match l with
    | [] => [x]
    | y :: r => if leb x y then x :: y :: r else y :: insert x r
    end.

  (** Stable: an element is put before the later elements it is equivalent to. *)
  Fixpoint isort (l : list A) : list A :=
    match l with
    | [] => []
    | x :: r => insert x (isort r)
    end.
End Isort.

(** [v.sort_by_key(key)] for an integer key. *)
Definition sort_by_key {A} (key : A -> Z) (l : list A) : list A :=
  isort (fun a b => Z.leb (key a) (key b)) l.
