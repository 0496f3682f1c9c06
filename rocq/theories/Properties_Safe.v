(** Theorems about crashes: of loaded engines (C68), of loading (C69), of hosts that use the
    C interface (C70). *)
From Coq Require Import String List NArith ZArith.
From Verif Require Import Base F32 M_Types M_Engine M_Feat M_Prob M_Features M_Fs M_Json M_Load M_Inject M_Zip M_Ffi S_Base S_Utils S_Load S_Inject S_Zip S_Ffi S_Safe S_Host S_Answer
  P_Norm P_Safe P_SafeLoad P_Host Demo Demo_Prob Demo_Crf Demo_Load Demo_Home Demo_Zip Demo_Safe Demo_SafeLoad Demo_Ffi Demo_Host.
Import ListNotations.
Local Open Scope nat_scope.

(** ** C68: the calls of an engine loaded from sound files do not panic *)
(** Whatever the engine directory, if each of its model files is sound (positions in range,
    distinct pairs, declared groups, weights of at most 2^64) and the external code keeps its
    contracts, then no call on the loaded engine panics, for any text whose derived texts
    have less than 2^29 characters, any filter, any intent or slot name, any number of
    alternatives and any order of the hash maps. *)
Theorem C68_loaded_engine_never_panics : forall x shape ngrams mx L fo uo f,
  externals_behave x mx L f -> sound_files L fo f ->
  forall p en input, from_path x shape ngrams mx L fo uo f p = Ok en -> texts_below_limit x (en_resources en) input ->
    (forall o1 o2 w b n salts, parse_with_alternatives x o1 o2 en input w b n salts <> Panic) /\
    (forall o, get_intents o en input <> Panic) /\
    (forall i salts, get_slots_with_alternatives x en input i salts <> Panic) /\
    (forall i name salts, extract_slot_with_alternatives x en input i name salts <> Panic).
Proof. exact loaded_never_panics. Qed.
Print Assumptions C68_loaded_engine_never_panics.

(** The features of a text are numbers between -4 and 4: the normalisation cannot give a
    value that is not a number, nor a large one, for weights of at most 2^64. *)
Theorem C68_features_bounded : forall x ngrams mx L fo f,
  externals_behave x mx L f -> sound_files L fo f ->
  forall res input,
  (forall s scope use n, rs_builtin res s scope use n <> Panic) ->
  (forall s, derived_text x res input s -> forall scope n, rs_custom res s scope n <> Panic) ->
  forall p fz o1 o2, load_featurizer x L fo f p res = Ok fz ->
  featurize x ngrams o1 o2 fz input <> Panic /\
  forall fs, featurize x ngrams o1 o2 fz input = Ok fs -> forall c, In c fs -> within four c.
Proof. intros. eapply loaded_featurizer; eassumption. Qed.
Print Assumptions C68_features_bounded.

(** The contract of the matrix product is met by the product computed term by term. *)
Theorem C68_plain_product_meets_contract : forall e,
  cell_ok (mkMath (fun row m j => fsum (map (fun p => fmul (fst p) (nth j (snd p) f0)) (combine row m))) e).
Proof. exact plain_cell_ok. Qed.
Print Assumptions C68_plain_product_meets_contract.

Example C68_case :
  externals_behave demo_ext demo_math home_loader home /\
  sound_files home_loader (fun _ _ => id_order) home /\
  load_home = Ok home_engine /\
  texts_below_limit demo_ext (en_resources home_engine) spoken /\
  parse_with_alternatives demo_ext id_order id_order home_engine spoken None None 2 0 =
    Ok (home_parse "Turn on the  LIVING   Room now" 2).
Proof. exact safe_case. Qed.

(** ** C69: loading does not panic *)
(** Whatever is on the disk (missing, truncated or foreign files included), loading gives an
    engine or an error, unless a table of coefficients is not full or a list of word clusters
    has a single column. *)
Theorem C69_loading_never_panics : forall x shape ngrams mx L fo uo f,
  crash_free_files L f -> loaders_calm L f ->
  forall p, from_path x shape ngrams mx L fo uo f p <> Panic.
Proof. exact loading_never_panics. Qed.
Print Assumptions C69_loading_never_panics.

(** The two exceptions are real: the same engine with one coefficient removed, or with a list
    of word clusters that has one column instead of two. *)
Theorem C69_any_files_refuted :
  load_in (loader_with "LM" short_table) home = Panic /\
  load_in (loader_with "R" clustered) (home_with animals one_column) = Panic /\
  is_ok (load_in (loader_with "R" clustered) (home_with animals two_columns)) = true /\
  is_ok (load_in home_loader home) = true.
Proof. exact damaged_panics. Qed.
Print Assumptions C69_any_files_refuted.

Example C69_case :
  crash_free_files (loader_with "R" clustered) (home_with animals two_columns) /\
  loaders_calm (loader_with "R" clustered) (home_with animals two_columns) /\
  is_ok (load_in (loader_with "R" clustered) (home_with animals two_columns)) = true.
Proof. exact loading_case. Qed.

(** ** C70: a host that uses the C interface is never aborted *)
(** Any sequence of calls, refused ones included, on engines created from sound directories
    or archives: no call panics and no client is ever poisoned. *)
Theorem C70_host_never_crashes : forall x shape ngrams mx L js cs l,
  sound_history x shape ngrams mx L js cs l ->
  ~ In RPanic (snd (run x js cs no_client l)) /\
  forall a en p, client_at (fst (run x js cs no_client l)) a en p -> p = false.
Proof. exact host_never_crashes. Qed.
Print Assumptions C70_host_never_crashes.

(** An archive of a sound directory is a sound archive, wherever it is unpacked. *)
Theorem C70_archives : forall io, (forall o, io o = true) ->
  forall x shape ngrams mx L fo fo' uo uo' f T n g p l,
  T <> [] -> directory f (removelast T) -> tree_like f -> (forall r, f (T ++ r) = None) ->
  tree_like g -> g (resolve p) = Some Dir -> packs n g (resolve p) l ->
  loaders_relative L ->
  (forall c, fo (p ++ map CName c) = fo' (map CName (T ++ n :: c))) ->
  (forall c, uo (p ++ map CName c) = uo' (map CName (T ++ n :: c))) ->
  (forall names j s, json_at L g (p ++ map CName names) j -> text_in s j -> plain s) ->
  (forall l, plain (ld_lang_name L l)) ->
  externals_behave x mx L g -> loaders_calm L g -> crash_free_files L g -> sound_files L fo g ->
  from_sound_files x shape ngrams mx L (from_zip io x shape ngrams mx L fo' uo' f (Some (map CName T)) (Some l)).
Proof. exact archive_sound. Qed.
Print Assumptions C70_archives.

Example C70_case :
  sound_history demo_ext demo_shape no_ngrams demo_math home_loader show to_c host /\
  snd (run demo_ext show to_c no_client host) =
    [ROk (OutClient 1); ROk (OutText $"lightOn"); RKo; ROk (OutText $"LIVING   Room "); RKo; RKo;
     ROk (OutClient 3); ROk (OutText $"lightOn"); RKo; ROk OutNothing] /\
  packs $"e" home_tree (resolve dir_e) home_zip /\ loaders_relative home_loader /\
  (externals_behave demo_ext demo_math home_loader home_tree /\ loaders_calm home_loader home_tree /\
   crash_free_files home_loader home_tree /\ sound_files home_loader (fun _ _ => id_order) home_tree).
Proof.
  split; [exact host_sound|]. split; [exact host_replies|]. split; [exact home_packed|]. split; [exact home_relative|].
  exact (conj (home_externals _) (conj (home_calm _) (conj (home_crash_free _) (home_sound _)))).
Qed.
