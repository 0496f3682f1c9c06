(** Specification vocabulary for entity injection: C46-C49. *)
From Coq Require Import String List NArith Bool.
From Verif Require Import Base M_Types M_Engine M_Features M_Res M_Fs M_Json M_Load M_Inject S_Load.
Import ListNotations.
Local Open Scope nat_scope.

(** ** Requests *)

(** An injector for the directory [p], given the values [adds] one after the other. *)
Definition request (p : path) (adds : list (str * str)) (vanilla : bool) (res : option Resources) : Injector :=
  let ij := from_vanilla (fold_left (fun ij a => add_value ij (fst a) (snd a)) adds (injector_new p)) vanilla in
  match res with Some r => with_resources ij r | None => ij end.
Definition requested (adds : list (str * str)) (e : str) : Prop := exists v, In (e, v) adds.
(** The values given for an entity, in order. *)
Definition values_of (adds : list (str * str)) (e : str) : list str :=
  map snd (filter (fun a => str_eqb (fst a) e) adds).

(** ** What the files of an engine say *)
Record Meta := mkMeta {
  me_model : EngineModel;                          (* nlu_engine.json *)
  me_lang : lang;
  me_builtin : option (str * list (str * str));    (* directory and parsers of the builtin gazetteers *)
  me_custom : CustomMetadata;
  me_custom_parsers : list (str * str)             (* entities and directories of the custom parsers *)
}.
Definition builtin_dir (p : path) (m : Meta) : path := pjoin p (em_builtin (me_model m)).
Definition custom_dir (p : path) (m : Meta) : path := pjoin p (em_custom (me_model m)).
Definition custom_gazetteers (p : path) (m : Meta) : path := pjoin (custom_dir p m) (cu_directory (me_custom m)).
(** The file at [p] holds a document that [d] decodes as [a]. *)
Definition decodes {A} (L : Loader) (f : fs) (p : path) (d : decoder A) (a : A) : Prop :=
  exists j, json_at L f p j /\ d j = Ok a.
Definition metadata (L : Loader) (fo : path -> orders) (f : fs) (p : path) (m : Meta) : Prop :=
  decodes L f (pjoin p $"nlu_engine.json") (d_engine (fo (pjoin p $"nlu_engine.json"))) (me_model m) /\
  ld_lang L (ds_language (em_dataset (me_model m))) = Some (me_lang m) /\
  decodes L f (pjoin (builtin_dir p m) $"metadata.json") d_builtin_metadata (option_map fst (me_builtin m)) /\
  (forall name parsers, me_builtin m = Some (name, parsers) ->
     decodes L f (pjoin (pjoin (builtin_dir p m) name) $"metadata.json") d_gazetteer_metadata parsers) /\
  decodes L f (pjoin (custom_dir p m) $"metadata.json") d_custom_metadata (me_custom m) /\
  decodes L f (pjoin (custom_gazetteers p m) $"metadata.json") d_gazetteer_metadata (me_custom_parsers m).

(** [name] is the value of the first occurrence of the key [e]. *)
Definition first_of (e : str) (l : list (str * str)) (name : str) : Prop :=
  exists pre post, l = pre ++ (e, name) :: post /\ ~ In e (map fst pre).

Definition is_custom (m : Meta) (e : str) : Prop := In e (map fst (ds_entities (em_dataset (me_model m)))).

(** The values of entity [e] are kept by the parser in directory [d]. *)
Definition stored (G : Gaz) (p : path) (m : Meta) (e : str) (d : path) : Prop :=
  (is_custom m e /\ exists name, first_of e (me_custom_parsers m) name /\ d = pjoin (custom_gazetteers p m) name) \/
  (~ is_custom m e /\ gz_is_gazetteer G e = true /\
   exists dir parsers name, me_builtin m = Some (dir, parsers) /\ first_of e parsers name /\
     d = pjoin (pjoin (builtin_dir p m) dir) name).

(** ** Values handed to the parser *)

(** [l'] keeps the first occurrence of each element of [l]. *)
Inductive firsts {A} : list A -> list A -> Prop :=
| firsts_nil : firsts [] []
| firsts_new l l' a : firsts l l' -> ~ In a l -> firsts (l ++ [a]) (l' ++ [a])
| firsts_old l l' a : firsts l l' -> In a l -> firsts (l ++ [a]) l'.

Definition normalised (x : Ext) (v : str) : GValue := mkGV v (x_lower x v).
Definition stemmed (x : Ext) (l : lang) (st : str -> str) (v : str) : GValue :=
  mkGV v (join $" " (map st (x_tokenize_light x l (x_lower x v)))).

Definition given (x : Ext) (l : lang) (u : usage) (stemmer : option (str -> str)) (values : list str)
    (vs : list GValue) : Prop :=
  match u with
  | WithoutStems => firsts (map (normalised x) values) vs
  | WithStems => (values = [] /\ vs = []) \/ exists st, stemmer = Some st /\ vs = map (stemmed x l st) values
  | WithAndWithoutStems =>
      (values = [] /\ vs = []) \/
      exists st, stemmer = Some st /\ firsts (map (normalised x) values ++ map (stemmed x l st) values) vs
  end.
Definition handed (x : Ext) (m : Meta) (stemmer : option (str -> str)) (e : str) (values : list str)
    (vs : list GValue) : Prop :=
  (is_custom m e /\ given x (me_lang m) (cu_usage (me_custom m)) stemmer values vs) \/
  (~ is_custom m e /\ vs = map (normalised x) values).

(** ** File trees *)
Definition at_or_below (d q : list str) : Prop := exists r, q = d ++ r.
Definition apart (d d' : list str) : Prop := ~ at_or_below d d' /\ ~ at_or_below d' d.
Definition gone (f : fs) (d : list str) : Prop := forall q, f (d ++ q) = None.

(** The parsers of distinct requested entities are in directories that do not overlap. *)
Definition separate (G : Gaz) (p : path) (m : Meta) (adds : list (str * str)) : Prop :=
  forall e e' d d', requested adds e -> requested adds e' -> e <> e' ->
    stored G p m e d -> stored G p m e' d' -> apart (resolve d) (resolve d').

(** Contract of the external functions on gazetteer parsers and directories. *)
Record gaz_ok (G : Gaz) : Prop := {
  load_local : forall f f' d, same_below (resolve d) f f' -> gz_load G f d = gz_load G f' d;
  load_missing : forall f d, gone f (resolve d) -> exists e, gz_load G f d = Err e;
  remove_within : forall f d o, In o (fst (gz_remove G f d)) -> at_or_below (resolve d) (op_path o);
  remove_done : forall f d, snd (gz_remove G f d) = Ok tt -> gone (apply_ops f (fst (gz_remove G f d))) (resolve d);
  dump_within : forall f d g o, In o (fst (gz_dump G f d g)) -> at_or_below (resolve d) (op_path o);
  dump_done : forall f d g, gone f (resolve d) -> snd (gz_dump G f d g) = Ok tt ->
    gz_load G (apply_ops f (fst (gz_dump G f d g))) d = Ok g
}.

(** The parser of entity [e] after a complete injection of the values. *)
Definition updated (G : Gaz) (x : Ext) (m : Meta) (stemmer : option (str -> str)) (vanilla : bool)
    (adds : list (str * str)) (f f' : fs) (e : str) (d : path) : Prop :=
  exists g vs g', gz_load G f d = Ok g /\ handed x m stemmer e (values_of adds e) vs /\
    gz_inject G g vs true vanilla = Ok g' /\ gz_load G f' d = Ok g'.

(** The files that hold the metadata. *)
Definition meta_files (p : path) (m : Meta) : list path :=
  [pjoin p $"nlu_engine.json"; pjoin (builtin_dir p m) $"metadata.json"; pjoin (custom_dir p m) $"metadata.json";
   pjoin (custom_gazetteers p m) $"metadata.json"] ++
  match me_builtin m with Some (name, _) => [pjoin (pjoin (builtin_dir p m) name) $"metadata.json"] | None => [] end.

(** The resources used: those of the request, or else those of the engine. *)
Definition resources_used (x : Ext) (L : Loader) (fo : path -> orders) (uo : path -> nat -> HashOrder)
    (f : fs) (p : path) (r : option Resources) (res : Resources) : Prop :=
  match r with Some r' => res = r' | None => load_engine_shared_resources x L fo uo f p = Ok res end.

(** Contract of the custom entity parser: it cannot be loaded when the directory of one of its
    parsers is missing. *)
Definition gazetteer_needed (L : Loader) : Prop :=
  forall f dir parsers e name,
    decodes L f (pjoin dir $"metadata.json") d_gazetteer_metadata parsers -> In (e, name) parsers ->
    gone f (resolve (pjoin dir name)) -> exists er, ld_gazetteer L f dir = Err er.
