(** Properties of the loading of an engine: C50, C58, C59, C60.  [Print Assumptions]
    beneath each theorem lists what it rests on.  [from_path x shape ngrams mx L fo uo f p]
    is [SnipsNluEngine::from_path] on directory [p] of the file tree [f]; the other
    arguments are the external functions and the iteration orders of hash maps. *)
From Coq Require Import String List NArith ZArith Bool Arith.
From Verif Require Import Base F32 M_Types M_Engine M_Prob M_Features M_Res M_Fs M_Json M_Load S_Base S_Engine
  S_Res S_Load P_Load P_Names Demo Demo_Rules Demo_Prob Demo_Load.
Import ListNotations.
Local Open Scope string_scope.
Local Open Scope list_scope.
Local Open Scope nat_scope.

(** ** C50 *)

(** An engine that loads declares the supported version, exactly once. *)
Theorem C50_supported_version_only : forall x shape ngrams mx L fo uo f p en,
  from_path x shape ngrams mx L fo uo f p = Ok en ->
  exists j, json_at L f (pjoin p $"nlu_engine.json") j /\ field_once j $"model_version" (JStr $"0.20.0").
Proof. exact loaded_version. Qed.
Print Assumptions C50_supported_version_only.

(** Another version is reported as such, whatever else is in the model, even if the rest
    cannot be read. *)
Theorem C50_other_version : forall x shape ngrams mx L fo uo f p j v,
  json_at L f (pjoin p $"nlu_engine.json") j -> field_once j $"model_version" (JStr v) -> v <> $"0.20.0" ->
  from_path x shape ngrams mx L fo uo f p = Err (EWrongModelVersion v $"0.20.0").
Proof. exact other_version. Qed.
Print Assumptions C50_other_version.

(** A model that declares no version is an error, never a panic. *)
Theorem C50_no_version : forall x shape ngrams mx L fo uo f p,
  (forall j v, json_at L f (pjoin p $"nlu_engine.json") j -> ~ field_once j $"model_version" (JStr v)) ->
  exists e, from_path x shape ngrams mx L fo uo f p = Err e.
Proof. exact unreadable_model. Qed.
Print Assumptions C50_no_version.

Example C50_case :
  load_demo (tree "E") = Ok loaded /\ length (en_parsers loaded) = 2 /\
  json_at demo_loader (tree "F") (pjoin dir_e $"nlu_engine.json") (engine_doc "0.19.0" ["rules"]) /\
  field_once (engine_doc "0.19.0" ["rules"]) $"model_version" (JStr $"0.19.0") /\
  load_demo (tree "F") = Err (EWrongModelVersion $"0.19.0" $"0.20.0") /\
  load_demo (files []) = Err EIo.
Proof.
  split; [exact loaded_eq|]. split; [vm_compute; reflexivity|].
  split; [exists $"F"; split; vm_compute; reflexivity|].
  split; [|split; vm_compute; reflexivity].
  unfold engine_doc, obj. cbn [map fst snd]. eexists [_; _; _], [_; _; _]. split; [reflexivity|].
  intros k w I. repeat (destruct I as [I|I]; [inversion I; discriminate|]). contradiction.
Qed.

(** ** C58 *)
Theorem C58_gazetteers : forall x shape ngrams mx L fo uo f p en,
  from_path x shape ngrams mx L fo uo f p = Ok en ->
  exists l j m, ld_lang L (ds_language (en_dataset en)) = Some l /\
    json_at L f (pjoin (resources_dir L p l) $"metadata.json") j /\ d_resources j = Ok m /\
    forall names n t, rm_gazetteers m = Some names -> In n names -> simple_name n -> without_extension n t ->
      exists c g, f (resolve (pjoin (resources_dir L p l) $"gazetteers") ++ [t ++ $".txt"]) = Some (File c) /\
        sget n (rs_gazetteers (en_resources en)) = Some g /\
        forall w, g w = true <-> exists line, is_line c line /\ line <> [] /\ x_hash x line = x_hash x w.
Proof. exact named_gazetteer. Qed.
Print Assumptions C58_gazetteers.

Theorem C58_clusters : forall x shape ngrams mx L fo uo f p en,
  from_path x shape ngrams mx L fo uo f p = Ok en ->
  exists l j m, ld_lang L (ds_language (en_dataset en)) = Some l /\
    json_at L f (pjoin (resources_dir L p l) $"metadata.json") j /\ d_resources j = Ok m /\
    forall names n t, rm_clusters m = Some names -> In n names -> simple_name n -> without_extension n t ->
      exists c g ord cl, f (resolve (pjoin (resources_dir L p l) $"word_clusters") ++ [t ++ $".txt"]) = Some (File c) /\
        sget n (rs_clusterers (en_resources en)) = Some g /\
        clusters_from_reader ord (x_hash x) c = Ok cl /\ forall w, g w = get_cluster (x_hash x) cl w.
Proof. exact named_clusters. Qed.
Print Assumptions C58_clusters.

Theorem C58_stop_words : forall x shape ngrams mx L fo uo f p en,
  from_path x shape ngrams mx L fo uo f p = Ok en ->
  exists l j m, ld_lang L (ds_language (en_dataset en)) = Some l /\
    json_at L f (pjoin (resources_dir L p l) $"metadata.json") j /\ d_resources j = Ok m /\
    match rm_stop_words m with
    | None => rs_stop_words (en_resources en) = []
    | Some n => forall t, simple_name n -> without_extension n t ->
        exists c, f (resolve (resources_dir L p l) ++ [t ++ $".txt"]) = Some (File c) /\
          forall w, In w (rs_stop_words (en_resources en)) <-> is_line c w /\ w <> []
    end.
Proof. exact named_stop_words. Qed.
Print Assumptions C58_stop_words.

Theorem C58_stems : forall x shape ngrams mx L fo uo f p en,
  from_path x shape ngrams mx L fo uo f p = Ok en ->
  exists l j m, ld_lang L (ds_language (en_dataset en)) = Some l /\
    json_at L f (pjoin (resources_dir L p l) $"metadata.json") j /\ d_resources j = Ok m /\
    match rm_stems m with
    | None => rs_stemmer (en_resources en) = None
    | Some n => forall t, simple_name n -> without_extension n t ->
        exists c s st, f (resolve (pjoin (resources_dir L p l) $"stemming") ++ [t ++ $".txt"]) = Some (File c) /\
          rs_stemmer (en_resources en) = Some s /\
          stemmer_from_reader (x_hash x) c = Ok st /\ forall w, s w = stem x st w
    end.
Proof. exact named_stems. Qed.
Print Assumptions C58_stems.

(** Finding: two gazetteers whose names only differ after the last dot are the same. *)
Theorem C58_distinct_names_refuted : forall x shape ngrams mx L fo uo f p en l j m names n n' t,
  from_path x shape ngrams mx L fo uo f p = Ok en -> ld_lang L (ds_language (en_dataset en)) = Some l ->
  json_at L f (pjoin (resources_dir L p l) $"metadata.json") j -> d_resources j = Ok m ->
  rm_gazetteers m = Some names -> In n names -> In n' names -> simple_name n -> simple_name n' ->
  without_extension n t -> without_extension n' t ->
  exists g g', sget n (rs_gazetteers (en_resources en)) = Some g /\
    sget n' (rs_gazetteers (en_resources en)) = Some g' /\ forall w, g w = g' w.
Proof. exact same_stem_same_gazetteer. Qed.
Print Assumptions C58_distinct_names_refuted.

Example C58_case :
  (exists g, sget $"cities.small" (rs_gazetteers (en_resources loaded)) = Some g /\ g $"rome" = true /\ g $"oslo" = false) /\
  (exists g, sget $"cities.large" (rs_gazetteers (en_resources loaded)) = Some g /\ g $"rome" = true) /\
  without_extension $"cities.small" $"cities" /\ without_extension $"cities.large" $"cities" /\
  without_extension $".hidden" $".hidden" /\
  rs_stop_words (en_resources loaded) = [$"the"; $"please"].
Proof.
  split; [|split; [|split; [|split; [|split]]]].
  - eexists (gazetteer_contains demo_hash [demo_hash $"rome"]). repeat split; vm_compute; reflexivity.
  - eexists (gazetteer_contains demo_hash [demo_hash $"rome"]). repeat split; vm_compute; reflexivity.
  - apply file_stem_iff. reflexivity.
  - apply file_stem_iff. reflexivity.
  - apply file_stem_iff. reflexivity.
  - vm_compute. reflexivity.
Qed.

(** ** C59 *)
Theorem C59_only_below : forall x shape ngrams mx L fo uo f f' p,
  same_below (resolve p) f f' -> loaders_local L ->
  (forall names j s, json_at L f (p ++ map CName names) j -> text_in s j -> plain s) ->
  (forall l, plain (ld_lang_name L l)) ->
  from_path x shape ngrams mx L fo uo f p = from_path x shape ngrams mx L fo uo f' p.
Proof. exact from_path_local. Qed.
Print Assumptions C59_only_below.

(** Finding: names of the model can designate files outside the directory. *)
Theorem C59_only_below_refuted : exists L f f',
  same_below (resolve dir_e) f f' /\ loaders_local L /\ (forall l, plain (ld_lang_name L l)) /\
  (exists en, from_path demo_ext (fun s => s) no_ngrams demo_math L (fun _ _ => id_order) (fun _ _ => id_order) f dir_e = Ok en) /\
  from_path demo_ext (fun s => s) no_ngrams demo_math L (fun _ _ => id_order) (fun _ _ => id_order) f' dir_e = Err EIo.
Proof. exact escaping_names. Qed.
Print Assumptions C59_only_below_refuted.

Example C59_case :
  same_below (resolve dir_e) (tree "E") other_tree /\ loaders_local demo_loader /\
  (forall names j s, json_at demo_loader (tree "E") (dir_e ++ map CName names) j -> text_in s j -> plain s) /\
  (forall l, plain (ld_lang_name demo_loader l)) /\ load_demo other_tree = Ok loaded.
Proof. exact only_below_case. Qed.

(** ** C60 *)
Theorem C60_loaded_engine_honours_filters :
  forall x shape ngrams mx L fo uo o1 o2 f p en input w b n salts res,
  classifiers_with_null L f -> from_path x shape ngrams mx L fo uo f p = Ok en ->
  (w <> None \/ b <> None) ->
  parse_with_alternatives x o1 o2 en input w b n salts = Ok res ->
  (forall i, ir_name (ps_intent res) = Some i -> known en i /\ allowed w b i) /\
  (forall a i, In a (ps_alternatives res) -> ir_name (al_intent a) = Some i -> known en i /\ allowed w b i).
Proof. exact loaded_filters. Qed.
Print Assumptions C60_loaded_engine_honours_filters.

Example C60_case :
  classifiers_with_null demo_loader (tree "E") /\ load_demo (tree "E") = Ok loaded /\
  (exists res, parse_with_alternatives demo_ext id_order id_order loaded light_text None None 1 0 = Ok res /\
     ir_name (ps_intent res) = Some $"lightOn") /\
  (exists res, parse_with_alternatives demo_ext id_order id_order loaded light_text None (Some [$"lightOn"]) 0 0 = Ok res /\
     ir_name (ps_intent res) = None).
Proof.
  split; [apply demo_null|]. split; [exact loaded_eq|]. split.
  - eexists (get_ok no_result (parse_with_alternatives demo_ext id_order id_order loaded light_text None None 1 0)).
    split; [apply get_ok_eq|]; vm_compute; reflexivity.
  - eexists (get_ok no_result (parse_with_alternatives demo_ext id_order id_order loaded light_text None (Some [$"lightOn"]) 0 0)).
    split; [apply get_ok_eq|]; vm_compute; reflexivity.
Qed.
