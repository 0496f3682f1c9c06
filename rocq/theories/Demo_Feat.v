(** Small vectorizers used by the examples. *)
From Coq Require Import String List NArith ZArith Bool.
From Coq Require Import Lia.
From Verif Require Import Base Sorting F32 M_Types M_Utils M_Engine M_Det M_Feat S_Feat Demo P_Base P_Feat.
Import ListNotations.

(** 1-grams only. *)
Definition demo_ngrams (tokens : list str) (_ : nat) : list str := tokens.

Definition demo_tfidf : Tfidf :=
  mkTV [$"snips/number"] [($"turn", 0); ($"light", 2); ($"entityfeatureroom", 3); ($"builtinentityfeaturesnips/number", 5)]
       [f1; f1; f_of 3 2; f_of 2 1; f1; f1] None None EN demo_res.
Definition demo_utt : str := $"Turn light light Kitchen 12 now".
Definition demo_lang_of (s : str) : option lang := if str_eqb s $"en" then Some EN else None.
Definition stem_res : Resources :=
  mkRes demo_builtin (demo_custom demo_voc) [] (Some (firstn 4)) [($"brown", fun w => Some $"c1")] [].
Definition demo_tfidf_model : TfidfModel :=
  mkTM $"en" [$"snips/number"] [f1; f1] [($"turn", 0); ($"c1", 1)] true (Some $"brown").
Definition demo_stemming : Tfidf :=
  mkTV [$"snips/number"] [($"turn", 0); ($"c1", 1)] [f1; f1] (Some (fun w => Some $"c1")) (Some (firstn 4)) EN stem_res.
Lemma demo_stemming_of : vectorizer_of demo_ext demo_lang_of demo_tfidf_model stem_res demo_stemming.
Proof. apply tfidf_new_spec. reflexivity. Qed.

Definition demo_cooc_model (pairs : list (nat * (str * str))) (window : option nat) (keep : bool) : CoocModel :=
  mkCM $"en" [$"snips/number"] pairs window true keep (Some $"UNK").
Definition demo_pairs : list (nat * (str * str)) :=
  [(1, ($"a", $"b")); (0, ($"b", $"c")); (2, ($"ROOM", $"a"))].
Definition no_cooc : Cooc := mkCV EN [] [] false None false None demo_res.
Definition demo_cooc pairs window keep : Cooc :=
  get_ok no_cooc (cooc_new demo_ext demo_lang_of (demo_cooc_model pairs window keep) demo_res).
Definition twice_pairs : list (nat * (str * str)) :=
  [(0, ($"a", $"b")); (1, ($"a", $"b")); (2, ($"c", $"d"))].

Lemma twice_numbered :
  NoDup (map fst twice_pairs) /\ (forall k, In k (map fst twice_pairs) <-> k < length twice_pairs).
Proof.
  split; [repeat constructor; simpl; intuition discriminate|].
  intros k. simpl. lia.
Qed.

Lemma twice_one ord pairs :
  In (($"c", $"d"), 2) (cv_pairs (demo_cooc pairs None true)) ->
  length (cv_pairs (demo_cooc pairs None true)) <= 2 ->
  is_ok (cooc_new demo_ext demo_lang_of (demo_cooc_model pairs None true) demo_res) = true ->
  cooc_transform demo_ext ord (demo_cooc pairs None true) $"c d" = Panic.
Proof.
  intros H L K.
  apply (cooc_panic_iff demo_ext demo_lang_of ord (demo_cooc_model pairs None true) demo_res
           (demo_cooc pairs None true) _ [$"c"; $"d"] [$"c"; $"d"]).
  - apply get_ok_eq. exact K.
  - reflexivity.
  - apply counted_kept. reflexivity.
  - exists $"c", $"d", 2. split; [exact H|]. split; [|exact L].
    exists 0, 1. repeat split; auto; discriminate.
Qed.

Lemma twice_panics ord :
  cooc_transform demo_ext ord (demo_cooc twice_pairs None true) $"c d" = Panic /\
  cooc_transform demo_ext ord (demo_cooc (rev twice_pairs) None true) $"c d" = Panic.
Proof.
  split; apply twice_one; try reflexivity; try (vm_compute; auto; fail); simpl; auto.
Qed.
