(** Model of src/utils.rs. *)
From Coq Require Import List NArith ZArith Bool Arith.
From Verif Require Import Base Sorting.
Import ListNotations.

(** src/utils.rs:21-36, [IterOps::intersect]. *)
Definition intersect {A} (eqb : A -> A -> bool) (l other : list A) : list A :=
  filter (fun e1 => existsb (fun e2 => eqb e1 e2) other) l.

(** src/utils.rs:50-61, the loop of [deduplicate_overlapping_items]: items are
    pushed when they overlap none of those already kept. *)
Fixpoint dedup_loop {I} (overlap : I -> I -> bool) (kept items : list I) : list I :=
  match items with
  | [] => kept
  | item :: r =>
      if existsb (fun d => overlap d item) kept
      then dedup_loop overlap kept r
      else dedup_loop overlap (kept ++ [item]) r
  end.

(** src/utils.rs:38-62.  The sort key is an integer in both uses. *)
Definition deduplicate_overlapping_items {I} (overlap : I -> I -> bool)
    (sort_key : I -> Z) (items : list I) : list I :=
  dedup_loop overlap [] (sort_by_key sort_key items).

(** src/utils.rs:105-109 *)
Record MatchedEntity := mkME { me_range : range; me_name : str }.

(** src/utils.rs:104-108, the derived [PartialEq]. *)
Definition me_eqb (a b : MatchedEntity) : bool :=
  range_eqb (me_range a) (me_range b) && str_eqb (me_name a) (me_name b).

(** src/utils.rs:169-177.  The key is [-(count as i32)]; the cast wraps at 2^31. *)
Definition entity_sort_key (e : MatchedEntity) : Z :=
  (- as_i32 (Z.of_nat (rlen (me_range e))))%Z.

(** src/utils.rs:169-177 *)
Definition deduplicate_overlapping_entities (es : list MatchedEntity) : list MatchedEntity :=
  sort_by_key (fun e => Z.of_nat (rstart (me_range e)))
    (deduplicate_overlapping_items
       (fun a b => ranges_overlap (me_range a) (me_range b)) entity_sort_key es).

(** State of the loop of [replace_entities], src/utils.rs:143-157. *)
Record rep_state := mkRep {
  rp_map : list (range * range);   (* range_mapping *)
  rp_text : str;                   (* processed_text *)
  rp_off : Z;                      (* offset: i16 *)
  rp_cur : nat                     (* current_ix *)
}.

(** One iteration, src/utils.rs:145-157.  The additions on [i16] wrap (release
    build); a debug build panics on overflow. *)
Definition rep_step (text : str) (placeholder : str -> str) (st : rep_state)
    (e : MatchedEntity) : rep_state :=
  let r := me_range e in
  let range_start := as_usize (as_i16 (as_i16 (Z.of_nat (rstart r)) + rp_off st)) in
  let prefix_text := substring text (rp_cur st, rstart r) in
  let entity_text := placeholder (me_name e) in
  let offset := as_i16 (rp_off st
                        + as_i16 (as_i16 (Z.of_nat (length entity_text))
                                  - as_i16 (Z.of_nat (rlen r)))) in
  let range_end := as_usize (as_i16 (as_i16 (Z.of_nat (rend r)) + offset)) in
  mkRep (hinsert range_eqb (range_start, range_end) r (rp_map st))
        (rp_text st ++ prefix_text ++ entity_text)
        offset
        (rend r).

(** src/utils.rs:128-167 *)
Definition replace_entities (text : str) (es : list MatchedEntity)
    (placeholder : str -> str) : list (range * range) * str :=
  match es with
  | [] => ([], text)
  | _ =>
      let dedup := sort_by_key (fun e => Z.of_nat (rstart (me_range e)))
                     (deduplicate_overlapping_entities es) in
      let st := fold_left (rep_step text placeholder) dedup (mkRep [] [] 0%Z 0) in
      (rp_map st, rp_text st ++ suffix_from text (rp_cur st))
  end.
