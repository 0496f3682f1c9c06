(** Model of entity injection: src/injection/injection.rs. *)
From Coq Require Import String List NArith ZArith Bool Arith.
From Verif Require Import Base F32 M_Types M_Engine M_Prob M_Features M_Res M_Fs M_Json M_Load.
Import ListNotations.
Local Open Scope nat_scope.

(** ** Changes of a file tree *)

(** One change of the tree, on the names from the root.  [ORemove] removes what is at or below
    the name: one [unlink] or [rmdir] when nothing is below it, several of them
    otherwise.  External; injection.rs:139-165 causes them. *)
Inductive op := OWrite (p : list str) (content : str) | OMkdir (p : list str) | ORemove (p : list str).
(** Helper, no counterpart in the code. *)
Definition names_eqb : list str -> list str -> bool := list_eqb str_eqb.
(** Helper, no counterpart in the code. *)
Fixpoint names_below (d q : list str) : bool :=
  match d, q with
  | [], _ => true
  | a :: d', b :: q' => str_eqb a b && names_below d' q'
  | _ :: _, [] => false
  end.
(** Helper, no counterpart in the code. *)
Definition op_path (o : op) : list str := match o with OWrite p _ => p | OMkdir p => p | ORemove p => p end.
(** What the file system (external) does. *)
Definition apply_op (f : fs) (o : op) : fs := fun q =>
  match o with
  | OWrite p c => if names_eqb p q then Some (File c) else f q
  | OMkdir p => if names_eqb p q then Some Dir else f q
  | ORemove p => if names_below p q then None else f q
  end.
(** Several changes, in order. *)
Definition apply_ops (f : fs) (l : list op) : fs := fold_left apply_op l f.

(** What a call does to the tree, in order, and its result.  injection.rs:89-169 returns
    a result after changing files. *)
Definition effect (A : Type) : Type := list op * outcome A.

(** ** External types and functions *)

(** [gazetteer_entity_parser::EntityValue].  External; injection.rs:12-14 imports it. *)
Record GValue := mkGV { gv_resolved : str; gv_raw : str }.
(** Its derived [PartialEq] (external). *)
Definition gvalue_eqb (a b : GValue) : bool := str_eqb (gv_resolved a) (gv_resolved b) && str_eqb (gv_raw a) (gv_raw b).

(** [gazetteer_entity_parser::Parser], [std::fs::remove_dir_all] and the entity kinds. *)
Record Gaz := mkGaz {
  gz_parser : Type;
  gz_load : fs -> path -> outcome gz_parser;                                  (* from_folder *)
  gz_inject : gz_parser -> list GValue -> bool -> bool -> outcome gz_parser;  (* inject_new_values *)
  gz_dump : fs -> path -> gz_parser -> effect unit;                           (* dump *)
  gz_remove : fs -> path -> effect unit;                                      (* remove_dir_all *)
  gz_is_gazetteer : str -> bool;   (* BuiltinGazetteerEntityKind::from_identifier(..).is_ok() *)
  gz_is_grammar : str -> bool      (* GrammarEntityKind::from_identifier(..).is_ok() *)
}.

(** [snips_nlu_parsers::BuiltinParserMetadata] and [GazetteerParserMetadata] (external; the
    fields are those of the files in data/tests/models). *)
Definition d_builtin_metadata : decoder (option str) := fun j =>
  let* fs := fields [$"language"; $"gazetteer_parser"] j in
  match fs with
  | [l; g] => let* _ := required d_str l in optional d_str g
  | _ => Err EIo
  end.
(** The entries of [GazetteerParserMetadata] (external), read in injection.rs:230-326. *)
Definition d_entity_parser : decoder (str * str) := fun j =>
  let* fs := fields [$"entity_identifier"; $"entity_parser"] j in
  match fs with
  | [e; p] => let* e := required d_str e in let* p := required d_str p in Ok (e, p)
  | _ => Err EIo
  end.
(** [GazetteerParserMetadata] (external), read in injection.rs:230-326. *)
Definition d_gazetteer_metadata : decoder (list (str * str)) := fun j =>
  let* fs := fields [$"parsers_metadata"] j in
  match fs with [v] => required (d_vec d_entity_parser) v | _ => Err EIo end.

(** injection.rs:35-51 *)
Record EngineInfo := mkEI { ei_lang : lang; ei_builtin_dir : path; ei_custom_dir : path; ei_custom : list str }.
(** injection.rs:42-51 *)
Record ParserInfo := mkPI { pi_dir : path; pi_parsers : list (str * str) }.

(** injection.rs:53-58.  [ij_values] in iteration order. *)
Record Injector := mkIJ {
  ij_dir : path; ij_values : list (str * list str); ij_vanilla : bool; ij_resources : option Resources }.

(** injection.rs:61-68 *)
Definition injector_new (p : path) : Injector := mkIJ p [] false None.
(** injection.rs:70-76 *)
Definition add_value (ij : Injector) (entity value : str) : Injector :=
  mkIJ (ij_dir ij)
       (hinsert str_eqb entity (match hget str_eqb entity (ij_values ij) with Some l => l | None => [] end ++ [value])
                (ij_values ij))
       (ij_vanilla ij) (ij_resources ij).
(** injection.rs:79-82 and 84-87 *)
Definition from_vanilla (ij : Injector) (b : bool) : Injector := mkIJ (ij_dir ij) (ij_values ij) b (ij_resources ij).
(** injection.rs:84-87 *)
Definition with_resources (ij : Injector) (r : Resources) : Injector :=
  mkIJ (ij_dir ij) (ij_values ij) (ij_vanilla ij) (Some r).

(** injection.rs:371-379 *)
Definition normalize_entity_value (x : Ext) (values : list str) : list GValue :=
  map (fun v => mkGV v (x_lower x v)) values.

(** injection.rs:381-420 *)
Definition stem_entity_value (x : Ext) (l : lang) (u : usage) (stemmer : option (str -> str)) (values : list GValue)
    : outcome (list GValue) :=
  let* stemmed :=
    match u with
    | WithoutStems => Ok []
    | _ => mapM (fun v => let* st := ok_or EOther stemmer in
                          Ok (mkGV (gv_resolved v) (join [space] (map st (x_tokenize_light x l (gv_raw v)))))) values
    end in
  match u with
  | WithStems => Ok stemmed
  | _ => Ok (unique gvalue_eqb (values ++ stemmed))
  end.

(** [with_context]: the failure becomes an [InternalInjectionError].  injection.rs:89-137
    and 230-369. *)
Definition internal {A} (m : outcome A) : outcome A := match m with Err _ => Err EOther | _ => m end.

Section Injection.
  Context (x : Ext) (shape : str -> str) (L : Loader) (file_orders : path -> orders)
          (unit_orders : path -> nat -> HashOrder) (G : Gaz).

  (** injection.rs:328-369: no version is checked. *)
  Definition get_engine_info (f : fs) (p : path) : outcome EngineInfo :=
    let file := pjoin p $"nlu_engine.json" in
    let* m := internal (read_json L f file (d_engine (file_orders file))) in
    let* l := ok_or EOther (ld_lang L (ds_language (em_dataset m))) in
    Ok (mkEI l (pjoin p (em_builtin m)) (pjoin p (em_custom m)) (hkeys (ds_entities (em_dataset m)))).

  (** injection.rs:230-279 *)
  Definition get_builtin_info (f : fs) (dir : path) : outcome (option ParserInfo) :=
    let* m := internal (read_json L f (pjoin dir $"metadata.json") d_builtin_metadata) in
    match m with
    | Some name =>
        let gdir := pjoin dir name in
        let* ps := internal (read_json L f (pjoin gdir $"metadata.json") d_gazetteer_metadata) in
        Ok (Some (mkPI gdir ps))
    | None => Ok None
    end.

  (** injection.rs:281-326 *)
  Definition get_custom_info (f : fs) (dir : path) : outcome (ParserInfo * usage) :=
    let* m := internal (read_json L f (pjoin dir $"metadata.json") d_custom_metadata) in
    let gdir := pjoin dir (cu_directory m) in
    let* ps := internal (read_json L f (pjoin gdir $"metadata.json") d_gazetteer_metadata) in
    Ok (mkPI gdir ps, cu_usage m).

  (** injection.rs:183-195 and 201-214: the first parser of the entity. *)
  Definition dir_in (i : ParserInfo) (entity : str) : outcome path :=
    match find (fun md => str_eqb (fst md) entity) (pi_parsers i) with
    | Some md => Ok (pjoin (pi_dir i) (snd md))
    | None => Err EInjectionUnknown
    end.

  (** injection.rs:181-224 *)
  Definition entity_dir (ei : EngineInfo) (bi : option ParserInfo) (ci : ParserInfo) (entity : str) : outcome path :=
    if smem entity (ei_custom ei) then dir_in ci entity
    else if gz_is_gazetteer G entity then
      match bi with Some i => dir_in i entity | None => Err EInjectionUnknown end
    else if gz_is_grammar G entity then Err EInjectionUnknown
    else Err EInjectionUnknown.

  (** injection.rs:172-228.  [ord]: iteration order of the requested entities. *)
  Definition get_entity_dirs (ord : HashOrder) (ei : EngineInfo) (bi : option ParserInfo) (ci : ParserInfo)
      (values : list (str * list str)) : outcome (list (str * path)) :=
    mapM (fun e => let* d := entity_dir ei bi ci e in Ok (e, d)) (reorder ord (hkeys values)).

  (** injection.rs:93-137: everything that is read and computed before the first change. *)
  Definition prepare (o1 o2 : HashOrder) (ij : Injector) (f : fs)
      : outcome (list (str * path) * list (str * list GValue)) :=
    let* ei := get_engine_info f (ij_dir ij) in
    let* bi := get_builtin_info f (ei_builtin_dir ei) in
    let* ci := get_custom_info f (ei_custom_dir ei) in
    let* dirs := get_entity_dirs o1 ei bi (fst ci) (ij_values ij) in
    let* res := match ij_resources ij with
                | Some r => Ok r
                | None => internal (load_engine_shared_resources x L file_orders unit_orders f (ij_dir ij))
                end in
    let* values := mapM (fun ev =>
                     let vs := normalize_entity_value x (snd ev) in
                     if smem (fst ev) (ei_custom ei) then
                       let* vs' := stem_entity_value x (ei_lang ei) (snd ci) (rs_stemmer res) vs in
                       Ok (fst ev, vs')
                     else Ok (fst ev, vs)) (reorder o2 (ij_values ij)) in
    Ok (dirs, values).

  (** injection.rs:139-165 for one entity. *)
  Definition inject_entity (vanilla : bool) (f : fs) (dir : path) (values : list GValue) : effect unit :=
    match gz_load G f dir with
    | Ok g =>
        match gz_inject G g values true vanilla with
        | Ok g' =>
            let (t1, r1) := gz_remove G f dir in
            match r1 with
            | Ok _ => let (t2, r2) := gz_dump G (apply_ops f t1) dir g' in (t1 ++ t2, internal r2)
            | _ => (t1, internal r1)
            end
        | Err _ => ([], Err EOther)
        | Panic => ([], Panic)
        end
    | Err _ => ([], Err EOther)
    | Panic => ([], Panic)
    end.

  (** injection.rs:139-169 *)
  Fixpoint inject_all (vanilla : bool) (f : fs) (dirs : list (str * path)) (l : list (str * list GValue)) : effect unit :=
    match l with
    | [] => ([], Ok tt)
    | (e, vs) :: r =>
        match hget str_eqb e dirs with
        | None => ([], Panic)
        | Some d =>
            let (t, res) := inject_entity vanilla f d vs in
            match res with
            | Ok _ => let (t', res') := inject_all vanilla (apply_ops f t) dirs r in (t ++ t', res')
            | _ => (t, res)
            end
        end
    end.

  (** injection.rs:89-169.  [o1 o2 o3]: iteration orders of the maps. *)
  Definition inject (o1 o2 o3 : HashOrder) (ij : Injector) (f : fs) : effect unit :=
    match prepare o1 o2 ij f with
    | Ok (dirs, values) => inject_all (ij_vanilla ij) f dirs (reorder o3 values)
    | Err e => ([], Err e)
    | Panic => ([], Panic)
    end.
End Injection.
