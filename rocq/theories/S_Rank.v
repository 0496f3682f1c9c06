(** Specification of the scores of the rule based parsers. *)
From Coq Require Import List ZArith Permutation.
From Verif Require Import Base F32 M_Types S_Engine.
Import ListNotations.

(** Weight of a match with [n] slots, in binary32. *)
Definition weight (n : nat) : f32 := fdiv f1 (fadd f1 (f32_of_nat n)).

Definition slot_count (m : InternalParsingResult) : nat := length (pr_slots m).

(** Share of the match [m] among all the matches [ms], added up in this order. *)
Definition share (ms : list InternalParsingResult) (m : InternalParsingResult) : f32 :=
  fdiv (weight (slot_count m)) (fsum (map (fun m => weight (slot_count m)) ms)).

(** The number of slots of a match fits in a machine word. *)
Definition countable (ms : list InternalParsingResult) : Prop :=
  forall m, In m ms -> (Z.of_nat (slot_count m) < 2 ^ 64)%Z.

(** The match [m] with its share as score. *)
Definition scored (ms : list InternalParsingResult) (m : InternalParsingResult) : InternalParsingResult :=
  mkIPR (mkIR (ir_name (pr_intent m)) (share ms m)) (pr_slots m).

(** The answer when nothing, or nothing certain, matches. *)
Definition no_intent : InternalParsingResult := mkIPR (mkIR None f1) [].

(** The answer of the ambiguity rule: the only match whose share is above one half. *)
Definition rule_answer (ms : list InternalParsingResult) (r : InternalParsingResult) : Prop :=
  (r = no_intent /\ forall m, In m ms -> fle (share ms m) fhalf = true) \/
  (exists i m, nth_error ms i = Some m /\ r = scored ms m /\ flt fhalf (share ms m) = true /\
     forall j m', j <> i -> nth_error ms j = Some m' -> fle (share ms m') fhalf = true).

(** The [n] best matches, with well formed scores. *)
Definition well_ranked (ms : list InternalParsingResult) (n : nat) (tops : list InternalParsingResult) : Prop :=
  (exists all, Permutation (map (scored ms) ms) all /\ tops = firstn n all) /\
  (forall r, In r tops -> flt f0 (ir_score (pr_intent r)) = true /\ fle (ir_score (pr_intent r)) f1 = true) /\
  best_first (map pr_intent tops) /\
  (forall r r', In r tops -> In r' tops -> slot_count r <= slot_count r' ->
     fle (ir_score (pr_intent r')) (ir_score (pr_intent r)) = true) /\
  (forall m, ms = [m] -> 1 <= n -> tops = [mkIPR (mkIR (ir_name (pr_intent m)) f1) (pr_slots m)]).

(** The list has each intent of [names] once, and the null intent with score 0, at the
    end; matching intents [ms] have their share as score, the others 0; best first. *)
Definition lists_intents (names : list str) (ms : list InternalParsingResult) (l : list IntentResult) : Prop :=
  NoDup (map ir_name l) /\
  (forall i, In (Some i) (map ir_name l) <-> In i names) /\
  (exists before, l = before ++ [mkIR None f0]) /\
  best_first l /\
  (forall r i, In r l -> ir_name r = Some i ->
     (exists m, In m ms /\ ir_name (pr_intent m) = Some i /\ ir_score r = share ms m) \/
     (ir_score r = f0 /\ forall m, In m ms -> ir_name (pr_intent m) <> Some i)).
