(** Common vocabulary of the model: outcomes, strings, ranges, hash maps. *)

From Coq Require Import List NArith ZArith Bool Lia Permutation.
From Coq Require Import String Ascii.
Import ListNotations.
Open Scope list_scope.
Open Scope nat_scope.

(** ** Outcomes

    Rust's [Result<T>] (src/errors.rs:1-38, the [failure] crate) where every
    reachable panic ([unwrap], index out of bounds, arithmetic underflow) is an
    explicit value.  [Err] carries only the error variants that the code
    distinguishes; error messages are not modelled. *)
Inductive error : Type :=
| EUnknownIntent        (* SnipsNluError::UnknownIntent *)
| EUnknownSlot          (* SnipsNluError::UnknownSlot *)
| EWrongModelVersion (model runner : list N)   (* SnipsNluError::WrongModelVersion *)
| EModelLoad            (* SnipsNluError::ModelLoad *)
| EShape                (* ndarray shape errors *)
| EIo                   (* io errors, malformed json, ... *)
| EInjectionUnknown     (* NluInjectionErrorKind::EntityNotInjectable / unknown entity *)
| EOther.               (* any other error *)

Inductive outcome (A : Type) : Type :=
| Ok (a : A)
| Err (e : error)
| Panic.
Arguments Ok {A} _.
Arguments Err {A} _.
Arguments Panic {A}.

Definition bind {A B} (m : outcome A) (k : A -> outcome B) : outcome B :=
  match m with
  | Ok a => k a
  | Err e => Err e
  | Panic => Panic
  end.

Notation "'let*' x ':=' m 'in' k" := (bind m (fun x => k))
  (at level 200, x pattern, m at level 100, k at level 200, right associativity).

Definition omap {A B} (f : A -> B) (m : outcome A) : outcome B :=
  bind m (fun a => Ok (f a)).

(** [.iter().map(f).collect::<Result<Vec<_>>>()]: stops at the first failure. *)
Fixpoint mapM {A B} (f : A -> outcome B) (l : list A) : outcome (list B) :=
  match l with
  | [] => Ok []
  | x :: r => let* y := f x in let* ys := mapM f r in Ok (y :: ys)
  end.

Definition is_ok {A} (m : outcome A) : bool :=
  match m with Ok _ => true | _ => false end.

(** [option::ok_or_else]. *)
Definition ok_or {A} (e : error) (o : option A) : outcome A :=
  match o with Some a => Ok a | None => Err e end.

(** Indexing [v[i]] panics out of bounds. *)
Definition index {A} (l : list A) (i : nat) : outcome A :=
  match nth_error l i with Some a => Ok a | None => Panic end.

(** Subtraction on [usize]: an underflow panics in a debug build; in a release
    build it wraps to a huge value that the surrounding code uses as a length or
    an index, which aborts.  Both are [Panic]. *)
Definition usub (a b : nat) : outcome nat :=
  if b <=? a then Ok (a - b) else Panic.

(** ** Strings

    A Rust [String] is the list of its Unicode scalar values. *)
Definition char := N.
Definition str := list char.

Fixpoint list_eqb {A} (eqb : A -> A -> bool) (l l' : list A) : bool :=
  match l, l' with
  | [], [] => true
  | x :: r, y :: r' => eqb x y && list_eqb eqb r r'
  | _, _ => false
  end.

Definition str_eqb : str -> str -> bool := list_eqb N.eqb.

Fixpoint str_of_string (s : string) : str :=
  match s with
  | EmptyString => []
  | String a r => N_of_ascii a :: str_of_string r
  end.
Notation "$ s" := (str_of_string s%string) (at level 0, s at level 0, only parsing).

Definition space : char := 32%N.

(** [(0..n).map(|_| " ").collect()] *)
Definition spaces (n : nat) : str := repeat space n.

(** [vec.join(sep)] for strings. *)
Fixpoint join (sep : str) (l : list str) : str :=
  match l with
  | [] => []
  | [s] => s
  | s :: r => s ++ sep ++ join sep r
  end.

Definition memb {A} (eqb : A -> A -> bool) (x : A) (l : list A) : bool :=
  existsb (eqb x) l.

(** ** Ranges: [std::ops::Range<usize>] *)
Definition range := (nat * nat)%type.
Definition rstart (r : range) : nat := fst r.
Definition rend (r : range) : nat := snd r.
(** [range.clone().count()]: 0 when the range is empty or reversed. *)
Definition rlen (r : range) : nat := rend r - rstart r.
Definition range_eqb (a b : range) : bool :=
  (rstart a =? rstart b) && (rend a =? rend b).

(** ** Functions of the external crate snips-nlu-utils (not in /repo)

    Modelled from their documented behaviour; part of the trusted base. *)

(** [snips_nlu_utils::range::ranges_overlap]. *)
Definition ranges_overlap (a b : range) : bool :=
  (rstart a <? rend b) && (rstart b <? rend a).

(** [snips_nlu_utils::string::substring_with_char_range]. *)
Definition substring (s : str) (r : range) : str :=
  firstn (rlen r) (skipn (rstart r) s).

(** [snips_nlu_utils::string::suffix_from_char_index]. *)
Definition suffix_from (s : str) (i : nat) : str := skipn i s.

(** Number of bytes of the UTF-8 encoding of a character. *)
Definition utf8_len (c : char) : nat :=
  if (c <? 128)%N then 1
  else if (c <? 2048)%N then 2
  else if (c <? 65536)%N then 3 else 4.

(** [s.len()]: number of bytes. *)
Fixpoint byte_len (s : str) : nat :=
  match s with
  | [] => 0
  | c :: r => utf8_len c + byte_len r
  end.

(** Number of characters that start before byte offset [b]; the character index
    of [b] when [b] is a character boundary. *)
Fixpoint char_index (s : str) (b : nat) : nat :=
  match s with
  | [] => 0
  | c :: r => if b =? 0 then 0 else S (char_index r (b - utf8_len c))
  end.

(** [snips_nlu_utils::string::convert_to_char_range]. *)
Definition convert_to_char_range (s : str) (r : range) : range :=
  (char_index s (rstart r), char_index s (rend r)).

(** [Some i] iff byte offset [b] is the boundary before character [i]. *)
Fixpoint boundary (s : str) (b : nat) : option nat :=
  if b =? 0 then Some 0 else
  match s with
  | [] => None
  | c :: r => if b <? utf8_len c then None
              else option_map S (boundary r (b - utf8_len c))
  end.

(** Byte slicing [&s[a..b]] of a Rust string: panics when a bound is not a
    character boundary or when the range is reversed. *)
Definition byte_slice (s : str) (r : range) : outcome str :=
  match boundary s (rstart r), boundary s (rend r) with
  | Some i, Some j => if i <=? j then Ok (substring s (i, j)) else Panic
  | _, _ => Panic
  end.

(** ** Hash maps

    A [HashMap<K,V>] is the association list of its entries in iteration order. *)
Section Assoc.
  Context {K V : Type} (eqb : K -> K -> bool).

  Fixpoint hget (k : K) (m : list (K * V)) : option V :=
    match m with
    | [] => None
    | (k', v) :: r => if eqb k k' then Some v else hget k r
    end.

  (** [HashMap::insert]: overwrites the value of an existing key. *)
  Fixpoint hinsert (k : K) (v : V) (m : list (K * V)) : list (K * V) :=
    match m with
    | [] => [(k, v)]
    | (k', v') :: r => if eqb k k' then (k', v) :: r else (k', v') :: hinsert k v r
    end.

  Definition hkeys (m : list (K * V)) : list K := map fst m.

  (** [iter.collect::<HashMap<_,_>>()]: later entries overwrite earlier ones. *)
  Definition hcollect (l : list (K * V)) : list (K * V) :=
    fold_left (fun m kv => hinsert (fst kv) (snd kv) m) l [].
End Assoc.

Definition sget {V} : str -> list (str * V) -> option V := hget str_eqb.
Definition smem : str -> list str -> bool := memb str_eqb.

(** Iteration order of a hash map created during a call: any permutation. *)
Record HashOrder := {
  ho_fun : forall A : Type, list A -> list A;
  ho_perm : forall A (l : list A), Permutation l (ho_fun A l)
}.
Definition reorder (o : HashOrder) {A} (l : list A) : list A := ho_fun o A l.

Definition id_order : HashOrder :=
  {| ho_fun := fun _ l => l; ho_perm := fun _ l => Permutation_refl l |}.
Definition rev_order : HashOrder :=
  {| ho_fun := fun _ l => rev l; ho_perm := fun _ l => Permutation_rev l |}.

(** [itertools::unique]: keeps first occurrences. *)
Fixpoint unique_aux {A} (eqb : A -> A -> bool) (seen l : list A) : list A :=
  match l with
  | [] => []
  | x :: r => if memb eqb x seen then unique_aux eqb seen r
              else x :: unique_aux eqb (x :: seen) r
  end.
Definition unique {A} (eqb : A -> A -> bool) (l : list A) : list A :=
  unique_aux eqb [] l.

(** ** Machine integers *)
Definition wrap (bits : Z) (z : Z) : Z :=
  ((z + 2 ^ (bits - 1)) mod 2 ^ bits - 2 ^ (bits - 1))%Z.
(** [x as i16], [x as i32] *)
Definition as_i16 (z : Z) : Z := wrap 16 z.
Definition as_i32 (z : Z) : Z := wrap 32 z.
(** [x as usize] on a 64-bit target *)
Definition as_usize (z : Z) : nat := Z.to_nat (z mod 2 ^ 64)%Z.
