(** Specification vocabulary for C94: what the number of slot alternatives changes. *)
From Coq Require Import String List NArith ZArith.
From Verif Require Import Base F32 M_Types M_Engine M_Fs M_Json M_Load.
Import ListNotations.

(** Both calls succeed with related results, fail with the same error, or panic. *)
Definition same_outcome {A B} (R : A -> B -> Prop) (a : outcome A) (b : outcome B) : Prop :=
  match a, b with
  | Ok u, Ok v => R u v
  | Err e, Err e' => e = e'
  | Panic, Panic => True
  | _, _ => False
  end.

(** The same but for the alternatives of the value. *)
Definition same_builtin (a b : BuiltinEntity) : Prop :=
  be_value a = be_value b /\ be_range a = be_range b /\ be_entity a = be_entity b /\ be_kind a = be_kind b.
Definition same_custom (a b : CustomEntity) : Prop :=
  ce_value a = ce_value b /\ ce_resolved a = ce_resolved b /\ ce_range a = ce_range b /\ ce_entity a = ce_entity b.
Definition same_slot (a b : Slot) : Prop :=
  sl_raw_value a = sl_raw_value b /\ sl_value a = sl_value b /\ sl_range a = sl_range b /\
  sl_entity a = sl_entity b /\ sl_slot_name a = sl_slot_name b /\ sl_confidence a = sl_confidence b.
Definition same_slots : list Slot -> list Slot -> Prop := Forall2 same_slot.
Definition same_answer (a b : ParseResult) : Prop :=
  ps_input a = ps_input b /\ ps_intent a = ps_intent b /\ same_slots (ps_slots a) (ps_slots b) /\
  Forall2 (fun u v => al_intent u = al_intent v /\ same_slots (al_slots u) (al_slots v)) (ps_alternatives a) (ps_alternatives b).
Definition same_found (a b : option Slot) : Prop :=
  match a, b with Some s, Some t => same_slot s t | None, None => True | _, _ => False end.

(** Contract of the libraries of entities: the number of alternatives asked for changes the
    alternatives only, and no entity has more of them. *)
Definition alternatives_apart (L : Loader) : Prop :=
  (forall f p b, ld_builtin L f p = Ok b ->
     forall s kinds n n', same_outcome (Forall2 same_builtin) (b s kinds n) (b s kinds n')) /\
  (forall f p g, ld_gazetteer L f p = Ok g ->
     forall s names n n', same_outcome (Forall2 same_custom) (g s names n) (g s names n')).
Definition alternatives_bounded (L : Loader) : Prop :=
  (forall f p b, ld_builtin L f p = Ok b ->
     forall s kinds n es e, b s kinds n = Ok es -> In e es -> length (be_alternatives e) <= n) /\
  (forall f p g, ld_gazetteer L f p = Ok g ->
     forall s names n es e, g s names n = Ok es -> In e es -> length (ce_alternatives e) <= n).
