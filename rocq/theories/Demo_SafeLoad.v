(** Loading the engine of the examples, and damaged copies of it. *)
From Coq Require Import String List NArith ZArith Bool Arith Lia.
From Verif Require Import Base F32 M_Types M_Engine M_Det M_Lookup M_Feat M_Prob M_Crf M_Features M_Filler
  M_Cache M_Res M_Fs M_Json M_Load S_Base S_Prob S_Res S_Load S_Safe
  P_Base P_Engine P_Load P_Res Demo Demo_Rules Demo_Prob Demo_Crf Demo_Load Demo_Home Demo_Safe.
Import ListNotations.
Local Open Scope string_scope.
Local Open Scope list_scope.
Local Open Scope nat_scope.

(** The files of the engine with one more. *)
Definition home_with (name : string) (content : str) : fs := fun q => if list_eqb str_eqb q (at_ name) then Some (File content) else home q.
(** The loader with another meaning for one document. *)
Definition loader_with (doc : string) (j : json) : Loader :=
  mkLoader (fun c => if str_eqb c $doc then Some j else ld_json home_loader c) (ld_f32 home_loader) (ld_lang home_loader)
    (ld_lang_name home_loader) (ld_regex home_loader) (ld_builtin home_loader) (ld_gazetteer home_loader) (ld_tagger home_loader).
Definition load_in (L : Loader) (f : fs) : outcome Engine :=
  from_path demo_ext demo_shape no_ngrams demo_math L (fun _ _ => id_order) (fun _ _ => id_order) f dir_e.

(** A classifier whose second intent misses a coefficient; resources with word clusters. *)
Definition short_table : json :=
  obj [("featurizer", txt "featurizer"); ("intercept", nums [0; 1; -1]%Z);
       ("coeffs", JArr [nums [9; -9; 0; 4]%Z; nums [-9; 9; 2]%Z; nums [-1; -1; 0; 0]%Z]);
       ("intent_list", JArr [txt "lightOn"; txt "setTemp"; JNull])].
Definition clustered : json :=
  obj [("language", txt "en"); ("gazetteers", JNull); ("word_clusters", arr ["animals"]); ("stems", JNull);
       ("stop_words", txt "stop_words")].
Definition animals : string := "e/resources/en/word_clusters/animals.txt".
Definition one_column : str := $"cat".
Definition two_columns : str := $"cat" ++ [tab] ++ $"7".

Lemma damaged_panics :
  load_in (loader_with "LM" short_table) home = Panic /\
  load_in (loader_with "R" clustered) (home_with animals one_column) = Panic /\
  is_ok (load_in (loader_with "R" clustered) (home_with animals two_columns)) = true /\
  is_ok (load_in home_loader home) = true.
Proof. repeat split; vm_compute; reflexivity. Qed.

(** The undamaged copy with word clusters meets the conditions. *)
Definition check_table (m : ClassifierModel) : bool :=
  match clm_intercept m, clm_coeffs m with
  | Some i, Some (first :: rest) => (length i <=? S (length rest)) && forallb (fun row => length first <=? length row) (first :: rest)
  | Some _, Some [] => false
  | _, _ => true
  end.
Lemma table_checked m i c : check_table m = true -> clm_intercept m = Some i -> clm_coeffs m = Some c -> full_table (length i) c.
Proof.
  intros H Ei Ec. unfold check_table in H. rewrite Ei, Ec in H. destruct c as [|first rest]; [discriminate|].
  exists first, rest. split; [reflexivity|]. intros _. apply andb_prop in H as [H1 H2]. apply Nat.leb_le in H1. split; [exact H1|].
  intros row Hr. assert (Hin : In row (first :: rest)) by (rewrite <- (firstn_skipn (length i)); apply in_or_app; left; exact Hr).
  rewrite forallb_forall in H2. apply H2 in Hin. apply Nat.leb_le in Hin. exact Hin.
Qed.
Definition check_load (j : json) : bool :=
  holds check_table (d_classifier home_f32 j) &&
  holds (fun m => match rm_clusters m with Some l => list_eqb str_eqb l [$"animals"] | None => true end) (d_resources j).
Lemma clustered_checked : forallb check_load (clustered :: map snd home_documents) = true.
Proof. vm_compute. reflexivity. Qed.

Lemma clustered_doc c j : ld_json (loader_with "R" clustered) c = Some j -> In j (clustered :: map snd home_documents).
Proof.
  cbn [loader_with ld_json]. destruct (str_eqb c $"R").
  - intros H. injection H as <-. left. reflexivity.
  - intros H. right. apply home_doc in H. apply in_map_iff. exists (c, j). auto.
Qed.
Lemma animals_path dir : resolve (with_extension (pjoin (pjoin dir $"word_clusters") $"animals") $"txt") =
  resolve (pjoin dir $"word_clusters") ++ [$"animals.txt"].
Proof.
  unfold pjoin at 1. change (is_absolute $"animals") with false. cbv iota. rewrite with_extension_app by discriminate.
  unfold resolve. rewrite fold_left_app. reflexivity.
Qed.
Lemma animals_only dir text :
  home_with animals two_columns (resolve (with_extension (pjoin (pjoin dir $"word_clusters") $"animals") $"txt")) = Some (File text) ->
  text = two_columns.
Proof.
  rewrite animals_path. unfold home_with. destruct (list_eqb _ _ _); [intros H; injection H as <-; reflexivity|].
  intros H. exfalso. unfold home in H. apply files_in in H.
  match type of H with In _ ?l => assert (F : forallb (fun pc => negb (str_eqb (last (fst pc) []) $"animals.txt")) l = true) by reflexivity end.
  rewrite forallb_forall in F. apply F in H. cbn [fst] in H. rewrite last_last in H. discriminate.
Qed.

Lemma loading_case :
  crash_free_files (loader_with "R" clustered) (home_with animals two_columns) /\
  loaders_calm (loader_with "R" clustered) (home_with animals two_columns) /\
  is_ok (load_in (loader_with "R" clustered) (home_with animals two_columns)) = true.
Proof.
  pose proof clustered_checked as K. rewrite forallb_forall in K.
  split; [split|split; [|apply damaged_panics]].
  - intros p j m i c (t & _ & J) D Ei Ec. apply clustered_doc in J. apply K in J. apply andb_prop in J as [J _].
    change (ld_f32 (loader_with "R" clustered)) with home_f32 in D. rewrite D in J. exact (table_checked m i c J Ei Ec).
  - intros dir j m names n text first rest (t & _ & J) D Ec Hn Ht Tb. apply clustered_doc in J. apply K in J.
    apply andb_prop in J as [_ J]. rewrite D in J. cbn [holds] in J. rewrite Ec in J.
    assert (names = [$"animals"]) as -> by (apply (list_eqb_spec str_eqb str_eqb_spec); exact J).
    destruct Hn as [<-|[]]. apply animals_only in Ht. subst text. apply table_iff in Tb.
    assert (E : length first = 2) by (apply (f_equal (fun l => length (hd [] l))) in Tb; exact Tb). lia.
  - split; [|split; [|split]]; intros p; cbn [ld_regex ld_builtin ld_gazetteer ld_tagger loader_with home_loader].
    + unfold demo_compile. destruct (sget p demo_patterns); discriminate.
    + discriminate.
    + discriminate.
    + destruct (home_with _ _ (resolve p)) as [[]|]; discriminate.
Qed.
