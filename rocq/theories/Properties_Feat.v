(** Theorems about the features of the intent classifier: C42, C43. *)
From Coq Require Import String List NArith ZArith Bool Permutation.
From Verif Require Import Base F32 M_Types M_Utils M_Engine M_Det M_Feat S_Base S_Utils S_Det S_Rules S_Feat P_Feat Demo Demo_Rules Demo_Feat.
Import ListNotations.

(** ** C42: tf-idf *)

(** The words of a text: its normalised (stemmed) tokens, one word per entity found, and
    the clusters of its n-grams. *)
Theorem C42_words : forall x ngrams tv utt words,
  tfidf_words x ngrams tv utt = Ok words ->
  let tokens := x_tokenize_light x (tv_lang tv) utt in
  let base := map (fun t => match tv_stemmer tv with
                            | Some stem => stem (x_normalize x t)
                            | None => x_normalize x t end) tokens in
  exists bes ces,
    rs_builtin (tv_res tv) utt (Some (tv_scope tv)) true 0 = Ok bes /\
    rs_custom (tv_res tv) (join [space] base) None 0 = Ok ces /\
    Permutation words
      (base ++ map (fun e => entity_word x (tv_lang tv) $"builtinentityfeature" (be_kind e)) bes
            ++ map (fun e => entity_word x (tv_lang tv) $"entityfeature" (ce_entity e)) ces
            ++ match tv_clusterer tv with
               | None => []
               | Some cluster => filter_map (fun g => cluster (x_lower x g)) (ngrams tokens (length tokens))
               end).
Proof. exact words_spec. Qed.
Print Assumptions C42_words.

(** One coordinate per index; count times idf, exactly; divided by a positive number; the
    only crash is an index without idf. *)
Theorem C42_vector : forall x ngrams ord tv utt words n,
  tfidf_words x ngrams tv utt = Ok words ->
  largest_index (tv_vocab tv) n -> (Z.of_nat (length words) <= 2 ^ 24)%Z ->
  match tfidf_transform x ngrams ord tv utt with
  | Ok v => exists raw, length raw = S n /\
      (forall i, i <= n -> exists x, nth_error raw i = Some x /\ raw_feature (tv_vocab tv) (tv_idf tv) words i x) /\
      v = map (fun c => fdiv c (divisor raw)) raw /\ flt f0 (divisor raw) = true
  | Err _ => False
  | Panic => exists i, 0 < occurrences (tv_vocab tv) i words /\ length (tv_idf tv) <= i
  end.
Proof. exact tfidf_spec. Qed.
Print Assumptions C42_vector.

Theorem C42_order_independent : forall x ngrams o o' tv utt,
  tfidf_transform x ngrams o tv utt = tfidf_transform x ngrams o' tv utt.
Proof. exact tfidf_order. Qed.
Print Assumptions C42_order_independent.

(** A text without known words has the zero vector. *)
Theorem C42_no_known_word : forall x ngrams ord tv utt words n,
  tfidf_words x ngrams tv utt = Ok words -> largest_index (tv_vocab tv) n ->
  (forall w i, In w words -> sget w (tv_vocab tv) <> Some i) ->
  tfidf_transform x ngrams ord tv utt = Ok (repeat f0 (S n)).
Proof. exact tfidf_no_words. Qed.
Print Assumptions C42_no_known_word.

(** An empty vocabulary crashes on every text. *)
Theorem C42_empty_vocabulary_panics : forall x ngrams ord tv utt words,
  tfidf_words x ngrams tv utt = Ok words -> tv_vocab tv = [] ->
  tfidf_transform x ngrams ord tv utt = Panic.
Proof. exact tfidf_empty_vocabulary. Qed.
Print Assumptions C42_empty_vocabulary_panics.

(** Loading a model: exactly the vectorizer that the file describes, or an error. *)
Theorem C42_model : forall x lang_of m res tv,
  tfidf_new x lang_of m res = Ok tv <-> vectorizer_of x lang_of m res tv.
Proof. exact tfidf_new_spec. Qed.
Print Assumptions C42_model.

Theorem C42_model_or_error : forall x lang_of m res,
  (exists tv, tfidf_new x lang_of m res = Ok tv) \/ tfidf_new x lang_of m res = Err EOther.
Proof. exact tfidf_new_total. Qed.
Print Assumptions C42_model_or_error.

Example C42_case :
  vectorizer_of demo_ext demo_lang_of demo_tfidf_model stem_res demo_stemming /\
  get_ok [] (tfidf_words demo_ext demo_ngrams demo_tfidf demo_utt) =
    [$"turn"; $"light"; $"light"; $"kitchen"; $"12"; $"now";
     $"builtinentityfeaturesnips/number"; $"entityfeatureroom"] /\
  largest_index (tv_vocab demo_tfidf) 5 /\
  map (fun i => occurrences (tv_vocab demo_tfidf) i
                  (get_ok [] (tfidf_words demo_ext demo_ngrams demo_tfidf demo_utt))) [0; 1; 2; 3; 4; 5]
    = [1; 0; 2; 1; 0; 1] /\
  is_ok (tfidf_transform demo_ext demo_ngrams rev_order demo_tfidf demo_utt) = true /\
  map (feq f0) (get_ok [] (tfidf_transform demo_ext demo_ngrams rev_order demo_tfidf demo_utt))
    = [false; true; false; false; true; false] /\
  map (feq f0) (get_ok [] (tfidf_transform demo_ext demo_ngrams rev_order demo_tfidf $"hello"))
    = [true; true; true; true; true; true].
Proof.
  split; [exact demo_stemming_of|].
  split; [vm_compute; reflexivity|]. split.
  - split; [eexists; simpl; eauto 10|].
    intros w j H. simpl in H. repeat (destruct H as [H|H]; [injection H as <- <-; repeat constructor|]). contradiction.
  - repeat split; vm_compute; reflexivity.
Qed.

(** ** C43: cooccurrence *)
(** The text whose pairs count, and why it may be missing. *)
Theorem C43_text : forall x cv utt tokens,
  builtin_parser_ok (rs_builtin (cv_res cv)) utt -> custom_parser_ok (rs_custom (cv_res cv)) utt -> (Z.of_nat (length utt) < 2 ^ 31)%Z ->
  cooc_tokens x cv utt = Ok tokens ->
  exists enriched, enriched_text x cv utt enriched /\ tokens = x_tokenize_light x (cv_lang cv) enriched.
Proof. exact cooc_text. Qed.
Print Assumptions C43_text.

Theorem C43_text_errors : forall x cv utt,
  match cooc_tokens x cv utt with
  | Ok _ => True
  | Err e => rs_builtin (cv_res cv) utt (Some (cv_scope cv)) true 0 = Err e \/ rs_custom (cv_res cv) utt None 0 = Err e
  | Panic => rs_builtin (cv_res cv) utt (Some (cv_scope cv)) true 0 = Panic \/ rs_custom (cv_res cv) utt None 0 = Panic
  end.
Proof. exact cooc_text_errors. Qed.
Print Assumptions C43_text_errors.

Theorem C43_pairs : forall x lo ord m res cv utt tokens words,
  cooc_new x lo m res = Ok cv -> good_pairs (cm_pairs m) ->
  cooc_tokens x cv utt = Ok tokens -> counted cv tokens words ->
  exists v, cooc_transform x ord cv utt = Ok v /\ length v = length (cm_pairs m) /\
    forall k a b, In (k, (a, b)) (cm_pairs m) ->
      (pair_present cv words a b -> nth_error v k = Some f1) /\
      (~ pair_present cv words a b -> nth_error v k = Some f0).
Proof. exact cooc_spec. Qed.
Print Assumptions C43_pairs.

Theorem C43_order_independent : forall x lo o o' m res cv utt,
  cooc_new x lo m res = Ok cv -> cooc_transform x o cv utt = cooc_transform x o' cv utt.
Proof. exact cooc_order. Qed.
Print Assumptions C43_order_independent.

(** For any pair table the only crash is a pair of the text with an index that is not
    below the number of distinct pairs. *)
Theorem C43_crash_iff : forall x lo ord m res cv utt tokens words,
  cooc_new x lo m res = Ok cv ->
  cooc_tokens x cv utt = Ok tokens -> counted cv tokens words ->
  (cooc_transform x ord cv utt = Panic <->
   exists a b k, In ((a, b), k) (cv_pairs cv) /\ pair_present cv words a b /\ length (cv_pairs cv) <= k).
Proof. exact cooc_panic_iff. Qed.
Print Assumptions C43_crash_iff.

(** A table numbered from 0 that lists a pair twice crashes on another pair, whatever
    the hash orders. *)
Theorem C43_duplicate_pair_panics_refuted : forall ord,
  NoDup (map fst twice_pairs) /\
  (forall k, In k (map fst twice_pairs) <-> k < length twice_pairs) /\
  cooc_transform demo_ext ord (demo_cooc twice_pairs None true) $"c d" = Panic /\
  cooc_transform demo_ext ord (demo_cooc (rev twice_pairs) None true) $"c d" = Panic.
Proof.
  exact (fun ord => conj (proj1 twice_numbered) (conj (proj2 twice_numbered) (twice_panics ord))).
Qed.
Print Assumptions C43_duplicate_pair_panics_refuted.

(** Both. *)
Theorem C43_concatenation : forall x ngrams o1 o2 fz input,
  featurize x ngrams o1 o2 fz input =
  match tfidf_transform x ngrams id_order (fz_tfidf fz) input, fz_cooc fz with
  | Ok fs, None => Ok fs
  | Ok fs, Some cv => match cooc_transform x o2 cv input with
                      | Ok cs => Ok (fs ++ cs) | Err e => Err e | Panic => Panic end
  | Err e, _ => Err e
  | Panic, _ => Panic
  end.
Proof. exact featurize_spec. Qed.
Print Assumptions C43_concatenation.

(** Loading a model. *)
Theorem C43_model : forall x lang_of m res cv, cooc_new x lang_of m res = Ok cv -> pairs_of x lang_of m res cv.
Proof. exact cooc_new_spec. Qed.
Print Assumptions C43_model.

Theorem C43_model_or_error : forall x lang_of m res,
  (exists cv, cooc_new x lang_of m res = Ok cv) \/
  (cooc_new x lang_of m res = Err EOther /\
   (lang_of (cm_language m) = None \/ forall ks, ~ known_kinds x (cm_scope m) ks)).
Proof. exact cooc_new_total. Qed.
Print Assumptions C43_model_or_error.

(** "the" is a stop word, UNK the unknown word marker, and the kitchen is replaced by
    ROOM. *)
Example C43_case :
  builtin_parser_ok (rs_builtin demo_res) $"a the UNK b kitchen c" /\
  custom_parser_ok (rs_custom demo_res) $"a the UNK b kitchen c" /\
  good_pairs demo_pairs /\
  is_ok (cooc_new demo_ext demo_lang_of (demo_cooc_model demo_pairs (Some 1) true) demo_res) = true /\
  get_ok [] (cooc_tokens demo_ext (demo_cooc demo_pairs (Some 1) true) $"a the UNK b kitchen c") =
    [$"a"; $"the"; $"UNK"; $"b"; $"ROOM"; $"c"] /\
  map (feq f1) (get_ok [] (cooc_transform demo_ext rev_order (demo_cooc demo_pairs (Some 1) true)
                             $"a the UNK b kitchen c")) = [false; true; false] /\
  map (feq f1) (get_ok [] (cooc_transform demo_ext rev_order (demo_cooc demo_pairs (Some 2) true)
                             $"a the UNK b kitchen c")) = [true; true; false] /\
  map (feq f1) (get_ok [] (cooc_transform demo_ext id_order (demo_cooc demo_pairs None false)
                             $"a the UNK b kitchen c")) = [true; true; true].
Proof.
  split; [apply demo_builtin_ok|]. split; [apply demo_custom_ok|]. split.
  - split; [|split]; try (repeat constructor; simpl; intuition discriminate).
    intros k H. simpl in *. intuition (subst; repeat constructor).
  - repeat split; vm_compute; reflexivity.
Qed.
