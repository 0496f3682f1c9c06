(** Properties of the features named in the model file of a slot filler: C75.  [Print
    Assumptions] beneath each theorem lists what it rests on. *)
From Coq Require Import String List NArith ZArith Bool Arith Lia.
From Verif Require Import Base M_Types M_Crf M_Feat M_Features M_Filler S_Base S_Utils S_Crf S_Filler S_Meaning
  P_Base P_Features P_Meaning Demo P_Demo Demo_Crf.
Import ListNotations.
Local Open Scope nat_scope.

(** ** C75 *)

(** Every feature that is built has the name, the offsets and the values that its entry in
    the model file describes. *)
Theorem C75_features : forall x shape f res fos,
  get_features x shape f res = Ok fos ->
  exists specs, described x shape res (ff_args f) (ff_name f) specs /\
    Forall2 (right_feature (ff_offsets f)) fos specs.
Proof. exact features_meaning. Qed.
Print Assumptions C75_features.

(** Every entry that describes features is accepted. *)
Theorem C75_accepted : forall x shape f res specs,
  described x shape res (ff_args f) (ff_name f) specs -> exists fos, get_features x shape f res = Ok fos.
Proof. exact described_builds. Qed.
Print Assumptions C75_accepted.

(** Any other entry is an error, never a panic. *)
Theorem C75_rejected : forall x shape f res,
  (forall specs, ~ described x shape res (ff_args f) (ff_name f) specs) ->
  exists e, get_features x shape f res = Err e.
Proof. exact not_described_errs. Qed.
Print Assumptions C75_rejected.

(** A slot filler has the scheme, the language and the slots of its model file, and the
    features of all the entries, in order; without a trained file it has none. *)
Theorem C75_slot_filler : forall x shape lang_of load_tagger m res cf,
  crf_new x shape lang_of load_tagger m res = Ok cf ->
  scheme_code (Z.of_nat (sm_scheme m)) (cf_scheme cf) /\ lang_of (sm_language m) = Some (cf_lang cf) /\
  cf_mapping cf = sm_mapping m /\
  match sm_crf_file m with
  | None => cf_tagger cf = None /\ cf_processor cf = None
  | Some name => exists tagger processor groups, load_tagger name = Ok tagger /\
      cf_tagger cf = Some tagger /\ cf_processor cf = Some processor /\
      Forall2 (fun f specs => described x shape res (ff_args f) (ff_name f) specs) (sm_factories m) groups /\
      Forall2 (fun fo (s : list Z * (str * meaning)) => right_feature (fst s) fo (snd s)) processor
        (concat (map (fun p => map (fun s => (ff_offsets (fst p), s)) (snd p)) (combine (sm_factories m) groups)))
  end.
Proof. exact filler_meaning. Qed.
Print Assumptions C75_slot_filler.

(** Finding: the code of a scheme in an entry is reduced modulo 256, so that 257 is
    accepted and means BIO, whereas the code 3 is refused. *)
Theorem C75_wrong_codes_refused_refuted : forall x shape res (entities : list str),
  get_features x shape (mkFF $"entity_match" [0%Z]
    [($"entities", JArr (map JStr entities)); ($"tagging_scheme_code", JNum 257); ($"use_stemming", JBool false)]) res =
  get_features x shape (mkFF $"entity_match" [0%Z]
    [($"entities", JArr (map JStr entities)); ($"tagging_scheme_code", JNum 1); ($"use_stemming", JBool false)]) res /\
  exists e, get_features x shape (mkFF $"entity_match" [0%Z]
    [($"entities", JArr (map JStr entities)); ($"tagging_scheme_code", JNum 3); ($"use_stemming", JBool false)]) res = Err e.
Proof. exact code_truncated. Qed.
Print Assumptions C75_wrong_codes_refused_refuted.

(** The values of some features on "turn on the living room now", and an entry that
    describes nothing. *)
Example C75_case :
  described demo_ext demo_shape demo_res (num 2) $"ngram"
    [($"ngram_2", says_ngram demo_ext 2 None None)] /\
  described demo_ext demo_shape demo_res [] $"is_last" [($"is_last", says_last)] /\
  map (fun i => ft_compute is_last_feature room_toks i) (seq 0 6) =
    [Ok None; Ok None; Ok None; Ok None; Ok None; Ok (Some $"1")] /\
  map (ft_compute is_digit_feature (demo_tokenize $"at 7 7pm")) (seq 0 3) = [Ok None; Ok (Some $"1"); Ok None] /\
  (exists cf, crf_new demo_ext demo_shape demo_filler_lang (fun _ => Ok demo_tagger) (demo_sfm 1 (Some $"model.crfsuite")) demo_res = Ok cf /\
     cf_scheme cf = BIO /\ option_map (map (fun fo => ft_name (fo_feature fo))) (cf_processor cf) =
       Some [$"ngram_1"; $"ngram_2"; $"is_first"; $"prefix_2"; $"entity_match_room"]) /\
  (forall specs, ~ described demo_ext demo_shape demo_res [($"n", JNum (-1))] $"shape_ngram" specs).
Proof.
  split. { apply (d_ngram _ _ _ _ 2 None None); [exists 2%Z; repeat split; lia|eapply without_gazetteer; [reflexivity|discriminate]|].
           apply without_stemmer. reflexivity. }
  split; [constructor|]. split; [vm_compute; reflexivity|]. split; [vm_compute; reflexivity|].
  split. { eexists (demo_filler demo_tagger). split; [apply get_ok_eq; vm_compute; reflexivity|]. split; vm_compute; reflexivity. }
  intros specs D. inversion D as [| | | | | n N | | | | |]. destruct N as (z & Hz & Hr & _). vm_compute in Hz. injection Hz as <-. lia.
Qed.
