(** A small engine with gazetteer parsers on disk, for the examples of Properties_Inject. *)
From Coq Require Import String List NArith ZArith Bool Arith.
From Verif Require Import Base F32 M_Types M_Engine M_Det M_Lookup M_Feat M_Prob M_Features M_Filler
  M_Cache M_Res M_Fs M_Json M_Load M_Inject S_Base S_Engine S_Res S_Load S_Inject
  P_Base P_Load P_Names P_Inject P_Effects P_Injection Demo Demo_Rules Demo_Prob Demo_Load.
Import ListNotations.
Local Open Scope string_scope.
Local Open Scope list_scope.
Local Open Scope nat_scope.

Definition parser_doc (entity dir : string) : json := obj [("entity_identifier", txt entity); ("entity_parser", txt dir)].
Definition inj_documents : list (str * json) :=
  [($"E", obj
      [("unit_name", txt "nlu_engine");
       ("dataset_metadata", obj
          [("language_code", txt "en");
           ("entities", obj [("room", obj [("automatically_extensible", JBool true)]);
                             ("color", obj [("automatically_extensible", JBool true)]);
                             ("ghost", obj [("automatically_extensible", JBool true)])]);
           ("slot_name_mappings", obj [])]);
       ("intent_parsers", arr []); ("model_version", txt "0.20.0");
       ("training_package_version", txt "0.20.1");
       ("builtin_entity_parser", txt "builtin"); ("custom_entity_parser", txt "custom")]);
   ($"R", obj [("language", txt "en"); ("gazetteers", JNull);
               ("word_clusters", JNull); ("stems", txt "stems"); ("stop_words", JNull)]);
   ($"B", obj [("language", txt "en"); ("gazetteer_parser", txt "gaz")]);
   ($"BG", obj [("parsers_metadata", JArr [parser_doc "snips/musicArtist" "artist"])]);
   ($"C", obj [("language", txt "en"); ("parser_directory", txt "parser"); ("parser_usage", JNum 2)]);
   ($"CG", obj [("parsers_metadata", JArr [parser_doc "room" "p1"; parser_doc "color" "p2"])])].

(** A gazetteer parser is the list of its values, kept in the file "data", one a line. *)
Definition data_file (d : path) : list str := resolve d ++ [$"data"].
Definition inj_load (f : fs) (d : path) : outcome str :=
  match f (data_file d) with Some (File c) => Ok c | _ => Err EIo end.
Definition inj_values (g : str) (vs : list GValue) (prepend vanilla : bool) : outcome str :=
  let new := flat_map (fun v => gv_raw v ++ $"=" ++ gv_resolved v ++ [newline]) vs in
  let old := if vanilla then [] else g in
  Ok (if prepend then new ++ old else old ++ new).
Definition demo_gaz : Gaz := mkGaz str inj_load inj_values
  (fun _ d g => ([OMkdir (resolve d); OWrite (data_file d) g], Ok tt))
  (fun _ d => ([ORemove (data_file d); ORemove (resolve d)], Ok tt))
  (str_eqb $"snips/musicArtist") (str_eqb $"snips/number").

Lemma names_eqb_refl q : names_eqb q q = true.
Proof. apply names_eqb_spec. reflexivity. Qed.
Lemma data_below d : at_or_below (resolve d) (data_file d).
Proof. exists [$"data"]. reflexivity. Qed.

Lemma demo_gaz_ok : gaz_ok demo_gaz.
Proof.
  split.
  - intros f f' d S. cbn. unfold inj_load, data_file. rewrite (S [$"data"]). reflexivity.
  - intros f d Hg. cbn. unfold inj_load, data_file. rewrite (Hg [$"data"]). eauto.
  - intros f d o [<-|[<-|[]]]; simpl; [apply data_below|apply at_or_below_refl].
  - intros f d _ q. cbn. assert (E : names_below (resolve d) (resolve d ++ q) = true)
      by (apply names_below_spec; exists q; reflexivity). rewrite E. reflexivity.
  - intros f d g o [<-|[<-|[]]]; simpl; [apply at_or_below_refl|apply data_below].
  - intros f d g _ _. cbn. unfold inj_load. cbn [apply_op]. rewrite names_eqb_refl. reflexivity.
Qed.

Definition inj_doc (c : str) : option json := sget c inj_documents.
(** All the parsers listed in the metadata have their file. *)
Definition inj_gazetteer (f : fs) (dir : path)
    : outcome (str -> option (list str) -> nat -> outcome (list CustomEntity)) :=
  match f (resolve (pjoin dir $"metadata.json")) with
  | Some (File c) =>
      let* j := ok_or EIo (inj_doc c) in
      let* ps := d_gazetteer_metadata j in
      let* _ := mapM (fun ep => inj_load f (pjoin dir (snd ep))) ps in
      Ok (demo_custom demo_voc)
  | _ => Err EIo
  end.
Definition inj_loader : Loader :=
  mkLoader inj_doc (fun _ => None) demo_lang (fun _ => $"en") demo_compile
           (fun _ _ => Ok (fun s kinds alts => demo_builtin s kinds false alts))
           inj_gazetteer (fun _ _ => Err EOther).

Lemma inj_needed : gazetteer_needed inj_loader.
Proof.
  intros f dir ps e name (j & (c & F & J) & D) I Hg. cbn [inj_loader ld_json ld_gazetteer] in J |- *. unfold inj_gazetteer. rewrite F, J. cbn [ok_or bind].
  rewrite D. cbn [bind].
  assert (M : exists er, mapM (fun ep => inj_load f (pjoin dir (snd ep))) ps = Err er).
  { clear -I Hg. induction ps as [|[e' n'] ps IH]; [contradiction|]. cbn [mapM snd].
    destruct I as [I|I].
    - inv I. unfold inj_load, data_file. rewrite (Hg [$"data"]). cbn. eauto.
    - destruct (IH I) as (er & ->). unfold inj_load at 1. destruct (f _) as [[|]|]; cbn [bind]; eauto. }
  destruct M as (er & ->). cbn. eauto.
Qed.

Definition inj_tree : fs := files
  [(at_ "e/nlu_engine.json", $"E");
   (at_ "e/resources/en/metadata.json", $"R");
   (at_ "e/resources/en/stemming/stems.txt", $"attic,attics" ++ [newline] ++ $"do,done");
   (at_ "e/builtin/metadata.json", $"B"); (at_ "e/builtin/gaz/metadata.json", $"BG");
   (at_ "e/builtin/gaz/artist/data", $"queen=Queen" ++ [newline]);
   (at_ "e/custom/metadata.json", $"C"); (at_ "e/custom/parser/metadata.json", $"CG");
   (at_ "e/custom/parser/p1/data", $"hall=hall" ++ [newline]);
   (at_ "e/custom/parser/p2/data", $"red=red" ++ [newline])].

Definition orders0 : path -> orders := fun _ _ => id_order.
Definition units0 : path -> nat -> HashOrder := fun _ _ => id_order.

Definition inj_meta : Meta := mkMeta
  (mkEM (mkDS $"en" [($"room", true); ($"color", true); ($"ghost", true)] []) [] $"builtin" $"custom")
  EN (Some ($"gaz", [($"snips/musicArtist", $"artist")])) (mkCuM $"en" $"parser" WithAndWithoutStems)
  [($"room", $"p1"); ($"color", $"p2")].
Lemma inj_metadata : metadata inj_loader orders0 inj_tree dir_e inj_meta.
Proof.
  assert (D : forall A (d : decoder A) q c j a, inj_tree (resolve q) = Some (File c) -> inj_doc c = Some j ->
            d j = Ok a -> decodes inj_loader inj_tree q d a).
  { intros A d q c j a F J H. exists j. split; auto. exists c. auto. }
  split; [eapply D; vm_compute; reflexivity|]. split; [reflexivity|].
  split; [eapply D; vm_compute; reflexivity|].
  split; [intros n ps E; inv E; eapply D; vm_compute; reflexivity|].
  split; eapply D; vm_compute; reflexivity.
Qed.

Definition adds : list (str * str) :=
  [($"room", $"Attics"); ($"snips/musicArtist", $"Abba"); ($"room", $"cellar"); ($"room", $"Attics")].
Definition p1 : path := pjoin (custom_gazetteers dir_e inj_meta) $"p1".
Definition p2 : path := pjoin (custom_gazetteers dir_e inj_meta) $"p2".
Definition artist : path := pjoin (pjoin (builtin_dir dir_e inj_meta) $"gaz") $"artist".
Lemma room_stored : stored demo_gaz dir_e inj_meta $"room" p1.
Proof.
  left. split; [left; reflexivity|]. exists $"p1". split; [|reflexivity]. exists [], [($"color", $"p2")]. split; auto.
Qed.
Lemma color_stored : stored demo_gaz dir_e inj_meta $"color" p2.
Proof.
  left. split; [right; left; reflexivity|]. exists $"p2". split; [|reflexivity]. exists [($"room", $"p1")], [].
  split; auto. intros [E|[]]. discriminate.
Qed.
Lemma artist_custom : ~ is_custom inj_meta $"snips/musicArtist".
Proof. intros I. cbn in I. repeat (destruct I as [I|I]; [discriminate|]). exact I. Qed.
Lemma artist_stored : stored demo_gaz dir_e inj_meta $"snips/musicArtist" artist.
Proof.
  right. split; [exact artist_custom|]. split; [reflexivity|].
  exists $"gaz", [($"snips/musicArtist", $"artist")], $"artist". split; auto. split; auto. exists [], []. split; auto.
Qed.
Lemma adds_requested e : requested adds e <-> e = $"room" \/ e = $"snips/musicArtist".
Proof.
  unfold requested, adds. split.
  - intros (v & I). repeat (destruct I as [I|I]; [inv I; auto|]). contradiction.
  - intros [->| ->]; eexists; [left; reflexivity|right; left; reflexivity].
Qed.
Lemma not_below d q : names_below d q = false -> ~ at_or_below d q.
Proof. intros E B. apply names_below_spec in B. congruence. Qed.
Ltac dir_apart := split; apply not_below; vm_compute; reflexivity.
Lemma adds_separate : separate demo_gaz dir_e inj_meta adds.
Proof.
  intros e e' d d' R R' N S S'. apply adds_requested in R, R'.
  destruct R as [->| ->], R' as [->| ->]; try congruence.
  - rewrite (stored_unique _ _ _ _ _ _ S room_stored), (stored_unique _ _ _ _ _ _ S' artist_stored). dir_apart.
  - rewrite (stored_unique _ _ _ _ _ _ S artist_stored), (stored_unique _ _ _ _ _ _ S' room_stored). dir_apart.
Qed.
Lemma adds_outside : forall e d q, requested adds e -> stored demo_gaz dir_e inj_meta e d ->
  In q (meta_files dir_e inj_meta) -> ~ at_or_below (resolve d) (resolve q).
Proof.
  intros e d q R S I. apply adds_requested in R. destruct R as [->| ->].
  - rewrite (stored_unique _ _ _ _ _ _ S room_stored).
    repeat (destruct I as [<-|I]; [apply not_below; vm_compute; reflexivity|]). contradiction.
  - rewrite (stored_unique _ _ _ _ _ _ S artist_stored).
    repeat (destruct I as [<-|I]; [apply not_below; vm_compute; reflexivity|]). contradiction.
Qed.
Lemma color_apart : forall e d, requested adds e -> stored demo_gaz dir_e inj_meta e d -> apart (resolve d) (resolve p2).
Proof.
  intros e d R S. apply adds_requested in R. destruct R as [->| ->].
  - rewrite (stored_unique _ _ _ _ _ _ S room_stored). dir_apart.
  - rewrite (stored_unique _ _ _ _ _ _ S artist_stored). dir_apart.
Qed.

Definition run_demo (l : list (str * str)) (vanilla : bool) : effect unit :=
  inject demo_ext inj_loader orders0 units0 demo_gaz id_order id_order id_order (request dir_e l vanilla None) inj_tree.
Definition run_rev (l : list (str * str)) (vanilla : bool) : effect unit :=
  inject demo_ext inj_loader orders0 units0 demo_gaz rev_order rev_order rev_order (request dir_e l vanilla None) inj_tree.
Definition lines (l : list string) : str := flat_map (fun s => $s ++ [newline]) l.

(** The same parsers on a full disk: writing fails. *)
Definition full_gaz : Gaz := mkGaz str inj_load inj_values
  (fun _ d g => ([], Err EIo)) (gz_remove demo_gaz) (gz_is_gazetteer demo_gaz) (gz_is_grammar demo_gaz).
Lemma full_gaz_ok : gaz_ok full_gaz.
Proof.
  destruct demo_gaz_ok as [A B C D E F]. split; [exact A|exact B|exact C|exact D| |].
  - intros f d g o [].
  - intros f d g _ H. discriminate.
Qed.
Lemma failed_write : exists x L fo uo G o1 o2 o3 p adds f M e d t er,
  gaz_ok G /\ metadata L fo f p M /\ separate G p M adds /\ requested adds e /\ stored G p M e d /\
  inject x L fo uo G o1 o2 o3 (request p adds false None) f = (t, Err er) /\
  (exists g, gz_load G f d = Ok g) /\ gone (apply_ops f t) (resolve d).
Proof.
  exists demo_ext, inj_loader, orders0, units0, full_gaz, id_order, id_order, id_order, dir_e, adds, inj_tree, inj_meta,
    $"room", p1, [ORemove (data_file p1); ORemove (resolve p1)], EOther.
  split; [exact full_gaz_ok|]. split; [exact inj_metadata|]. split; [exact adds_separate|].
  split; [apply adds_requested; auto|]. split; [exact room_stored|].
  split; [vm_compute; reflexivity|]. split; [eexists; vm_compute; reflexivity|].
  apply (remove_done _ full_gaz_ok inj_tree p1). reflexivity.
Qed.

(** After a failure, some entities may be done and others not. *)
Definition half_gaz : Gaz := mkGaz str inj_load
  (fun g vs a b => match vs with [v] => Err EOther | _ => inj_values g vs a b end)
  (gz_dump demo_gaz) (gz_remove demo_gaz) (gz_is_gazetteer demo_gaz) (gz_is_grammar demo_gaz).
Lemma half_gaz_ok : gaz_ok half_gaz.
Proof. destruct demo_gaz_ok as [A B C D E F]. split; [exact A|exact B|exact C|exact D|exact E|exact F]. Qed.
Lemma partly_applied : exists x L fo uo G o1 o2 o3 p adds f M e d e' d' t er,
  gaz_ok G /\ metadata L fo f p M /\ separate G p M adds /\
  requested adds e /\ stored G p M e d /\ requested adds e' /\ stored G p M e' d' /\
  inject x L fo uo G o1 o2 o3 (request p adds false None) f = (t, Err er) /\
  gz_load G (apply_ops f t) d <> gz_load G f d /\ gz_load G (apply_ops f t) d' = gz_load G f d'.
Proof.
  exists demo_ext, inj_loader, orders0, units0, half_gaz, id_order, id_order, id_order, dir_e, adds, inj_tree, inj_meta,
    $"room", p1, $"snips/musicArtist", artist,
    (fst (inject demo_ext inj_loader orders0 units0 half_gaz id_order id_order id_order (request dir_e adds false None) inj_tree)), EOther.
  split; [exact half_gaz_ok|]. split; [exact inj_metadata|]. split; [exact adds_separate|].
  split; [apply adds_requested; auto|]. split; [exact room_stored|].
  split; [apply adds_requested; auto|]. split; [exact artist_stored|].
  split; [vm_compute; reflexivity|]. split; [vm_compute; discriminate|vm_compute; reflexivity].
Qed.
