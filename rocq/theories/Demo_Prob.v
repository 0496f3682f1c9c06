(** Small classifiers used by the examples. *)
From Coq Require Import String List NArith ZArith Bool.
From Verif Require Import Base Sorting F32 M_Types M_Utils M_Engine M_Det M_Lookup M_Prob S_Prob Demo Demo_Rules P_Logit.
Import ListNotations.

(** A matrix product by plain summation, and a step instead of the exponential. *)
Definition demo_math : Math :=
  mkMath (fun row m j => fsum (map (fun p => fmul (fst p) (nth j (snd p) f0)) (combine row m)))
         (fun v => if fle v f0 then f_of 1 4 else f_of 3 1).

Lemma demo_exp_ok : exp_ok demo_math.
Proof. intros v _. simpl. destruct (fle v f0); reflexivity. Qed.

Definition demo_features : str -> outcome (list f32) :=
  fun s => Ok [f32_of_nat (length s); f_of (-1) 2].

(** Three classes (one null class), two features. *)
Definition demo_logreg : Logreg :=
  get_ok (mkLR 0 []) (logreg_new [f_of (-3) 1; f_of 1 1; f_of 1 5] [[f1; f0]; [f_of (-1) 4; f1]; [f0; f1]]).

Definition demo_classifier : Classifier :=
  mkCl [Some $"lightOn"; Some $"setTemp"; None] (Some demo_features) (Some demo_logreg).

Definition demo_fillers : list (str * (str -> outcome (list InternalSlot))) :=
  [($"lightOn", fun _ => Ok [slot_kitchen]); ($"setTemp", fun _ => Ok []); ($"lightOn", fun _ => Ok [])].

Definition demo_prob : IntentParser :=
  prob_intent_parser (prob_new rev_order (logreg_classifier demo_math demo_classifier) demo_fillers).

(** A classifier with one class, and one without the null class. *)
Definition lone_classifier : Classifier := mkCl [Some $"lightOn"] (Some demo_features) None.
Definition nullless_classifier : Classifier :=
  mkCl [Some $"lightOn"; Some $"setTemp"] (Some demo_features) (Some demo_logreg).
Definition prob_of (c : Classifier) : IntentParser :=
  prob_intent_parser (prob_new id_order (logreg_classifier demo_math c) demo_fillers).

Definition no_ir : IntentResult := mkIR None f0.

(** An engine with the three parsers; without filter the classifier prefers lightOn. *)
Definition three_parsers : Engine :=
  demo_engine [det_intent_parser demo_ext id_order demo_dp;
               lookup_intent_parser demo_ext id_order (demo_lp 0); demo_prob].
