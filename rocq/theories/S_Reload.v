(** Specification vocabulary for C81: engines loaded after an injection. *)
From Coq Require Import String List NArith ZArith.
From Verif Require Import Base M_Types M_Engine M_Features M_Res M_Fs M_Json M_Load M_Inject S_Load S_Inject.
Import ListNotations.

(** ** Places *)

(** The directories of the gazetteer parsers that the files of the engine list. *)
Definition listed (p : path) (m : Meta) : list path :=
  map (fun ep => pjoin (custom_gazetteers p m) (snd ep)) (me_custom_parsers m) ++
  match me_builtin m with
  | Some (name, parsers) => map (fun ep => pjoin (pjoin (builtin_dir p m) name) (snd ep)) parsers
  | None => []
  end.
(** The directories of the resources and of the intent parsers. *)
Definition unit_dirs (p : path) (m : Meta) : list path :=
  pjoin p $"resources" :: map (pjoin p) (em_parsers (me_model m)).
(** No two gazetteer parsers share files, and none of them is where metadata, resources or
    intent parsers are. *)
Definition tidy (p : path) (m : Meta) : Prop :=
  ForallOrdPairs apart (map resolve (listed p m)) /\
  (forall d q, In d (listed p m) -> In q (meta_files p m) -> ~ at_or_below (resolve d) (resolve q)) /\
  (forall d q, In d (listed p m) -> In q (unit_dirs p m) -> apart (resolve d) (resolve q)).
(** The names in the documents of the resources and of the intent parsers stay below them. *)
Definition names_stay (L : Loader) (f : fs) (p : path) (m : Meta) : Prop :=
  (forall q names j s, In q (unit_dirs p m) -> json_at L f (q ++ map CName names) j -> text_in s j -> plain s) /\
  (forall l, simple_name (ld_lang_name L l)).

(** Loading a tagger reads its file only. *)
Definition taggers_local (L : Loader) : Prop :=
  forall f f' q, same_below (resolve q) f f' -> ld_tagger L f q = ld_tagger L f' q.

(** ** Entity parsers *)

(** The same loader, except that it takes the entity parsers from the tree [f']. *)
Definition entities_from (L : Loader) (f' : fs) : Loader :=
  mkLoader (ld_json L) (ld_f32 L) (ld_lang L) (ld_lang_name L) (ld_regex L)
    (fun _ dir => ld_builtin L f' dir) (fun _ dir => ld_gazetteer L f' dir) (ld_tagger L).

(** The parsers listed in a metadata file, from their directories. *)
Definition loads (G : Gaz) (f : fs) (dir : path) (parsers : list (str * str)) (gs : list (str * gz_parser G)) : Prop :=
  Forall2 (fun ep g => fst g = fst ep /\ gz_load G f (pjoin dir (snd ep)) = Ok (snd g)) parsers gs.
Definition custom_loaded (G : Gaz) (f : fs) (p : path) (m : Meta) : list (str * gz_parser G) -> Prop :=
  loads G f (custom_gazetteers p m) (me_custom_parsers m).
Definition builtin_loaded (G : Gaz) (f : fs) (p : path) (m : Meta) (gs : list (str * gz_parser G)) : Prop :=
  match me_builtin m with
  | Some (name, parsers) => loads G f (pjoin (builtin_dir p m) name) parsers gs
  | None => gs = []
  end.

(** Contract of [GazetteerParser::from_path] and [BuiltinEntityParser::from_path] (external):
    the listed parsers are loaded and put together. *)
Definition assembled (L : Loader) (G : Gaz)
    (make : list (str * gz_parser G) -> str -> option (list str) -> nat -> outcome (list CustomEntity))
    (make_builtin : json ->
       option (list (str * gz_parser G) -> str -> option (list kind) -> nat -> outcome (list BuiltinEntity))) : Prop :=
  (forall f dir parsers gaz, decodes L f (pjoin dir $"metadata.json") d_gazetteer_metadata parsers ->
     (ld_gazetteer L f dir = Ok gaz <-> exists gs, loads G f dir parsers gs /\ gaz = make gs)) /\
  (forall f dir j b, json_at L f (pjoin dir $"metadata.json") j ->
     (d_builtin_metadata j = Ok None ->
        (ld_builtin L f dir = Ok b <-> exists mk, make_builtin j = Some mk /\ b = mk [])) /\
     (forall name parsers, d_builtin_metadata j = Ok (Some name) ->
        decodes L f (pjoin (pjoin dir name) $"metadata.json") d_gazetteer_metadata parsers ->
        (ld_builtin L f dir = Ok b <-> exists mk gs, make_builtin j = Some mk /\
           loads G f (pjoin dir name) parsers gs /\ b = mk gs))).

(** ** Resources that differ by their entity parsers only *)
Definition same_but_entities (r r' : Resources) : Prop :=
  rs_gazetteers r' = rs_gazetteers r /\ rs_stemmer r' = rs_stemmer r /\
  rs_clusterers r' = rs_clusterers r /\ rs_stop_words r' = rs_stop_words r.

(** The parser [g'] in directory [d] after the injection, when it was [g] before: updated once
    with the values of the entity that it keeps if this entity is requested, the same otherwise. *)
Definition parser_after (G : Gaz) (x : Ext) (p : path) (m : Meta) (stemmer : option (str -> str)) (vanilla : bool)
    (adds : list (str * str)) (d : path) (g g' : gz_parser G) : Prop :=
  (exists e vs, requested adds e /\ stored G p m e d /\ handed x m stemmer e (values_of adds e) vs /\
     gz_inject G g vs true vanilla = Ok g') \/
  ((forall e, requested adds e -> ~ stored G p m e d) /\ g' = g).
(** The same for a list of parsers. *)
Definition parsers_after (G : Gaz) (x : Ext) (p : path) (m : Meta) (stemmer : option (str -> str)) (vanilla : bool)
    (adds : list (str * str)) (dir : path) (parsers : list (str * str)) (gs gs' : list (str * gz_parser G)) : Prop :=
  Forall2 (fun ep gg => fst (fst gg) = fst ep /\ fst (snd gg) = fst ep /\
             parser_after G x p m stemmer vanilla adds (pjoin dir (snd ep)) (snd (fst gg)) (snd (snd gg)))
          parsers (combine gs gs') /\ length gs' = length gs.

Definition custom_after (G : Gaz) (x : Ext) (p : path) (m : Meta) (stemmer : option (str -> str)) (vanilla : bool)
    (adds : list (str * str)) : list (str * gz_parser G) -> list (str * gz_parser G) -> Prop :=
  parsers_after G x p m stemmer vanilla adds (custom_gazetteers p m) (me_custom_parsers m).
Definition builtin_after (G : Gaz) (x : Ext) (p : path) (m : Meta) (stemmer : option (str -> str)) (vanilla : bool)
    (adds : list (str * str)) (gs gs' : list (str * gz_parser G)) : Prop :=
  match me_builtin m with
  | Some (name, parsers) => parsers_after G x p m stemmer vanilla adds (pjoin (builtin_dir p m) name) parsers gs gs'
  | None => gs = [] /\ gs' = []
  end.
