(** Properties of entity injection: C46-C49.  [Print Assumptions] beneath each theorem lists
    what it rests on.  [inject x L fo uo G o1 o2 o3 (request p adds vanilla r) f] is
    [NluInjector::inject] on the engine directory [p] of the file tree [f], after
    [add_value] with each pair of [adds]; its result is the list of the changes made to the
    tree, in order, and the result of the call.  The tree after a crash is
    [apply_ops f t1] for a prefix [t1] of the changes. *)
From Coq Require Import String List NArith ZArith Bool Arith.
From Verif Require Import Base M_Types M_Engine M_Prob M_Features M_Res M_Fs M_Json M_Load M_Inject
  S_Base S_Res S_Load S_Inject P_Inject P_Injection Demo Demo_Load Demo_Inject.
Import ListNotations.
Local Open Scope string_scope.
Local Open Scope list_scope.
Local Open Scope nat_scope.

(** ** C46 *)

(** Metadata that cannot be read. *)
Theorem C46_unreadable_engine : forall x L fo uo G o1 o2 o3 p adds vanilla r f,
  (forall m, ~ metadata L fo f p m) ->
  exists e, inject x L fo uo G o1 o2 o3 (request p adds vanilla r) f = ([], Err e).
Proof. exact bad_metadata. Qed.
Print Assumptions C46_unreadable_engine.

(** An entity without parser: unknown, or grammar based, or not in the metadata. *)
Theorem C46_not_injectable : forall x L fo uo G o1 o2 o3 p adds vanilla r f m e,
  metadata L fo f p m -> requested adds e -> (forall d, ~ stored G p m e d) ->
  inject x L fo uo G o1 o2 o3 (request p adds vanilla r) f = ([], Err EInjectionUnknown).
Proof. exact not_injectable. Qed.
Print Assumptions C46_not_injectable.

(** Resources that cannot be loaded, or have no stemmer although stems are needed. *)
Theorem C46_no_values : forall x L fo uo G o1 o2 o3 p adds vanilla r f m e,
  metadata L fo f p m -> requested adds e ->
  (forall res vs, resources_used x L fo uo f p r res -> ~ handed x m (rs_stemmer res) e (values_of adds e) vs) ->
  fst (inject x L fo uo G o1 o2 o3 (request p adds vanilla r) f) = [] /\
  snd (inject x L fo uo G o1 o2 o3 (request p adds vanilla r) f) <> Ok tt.
Proof. exact no_values. Qed.
Print Assumptions C46_no_values.

(** Conversely the first change is made after everything was checked. *)
Theorem C46_checked_before_changes : forall x L fo uo G o1 o2 o3 p adds vanilla r f,
  fst (inject x L fo uo G o1 o2 o3 (request p adds vanilla r) f) <> [] ->
  exists m res, metadata L fo f p m /\ resources_used x L fo uo f p r res /\
    forall e, requested adds e -> (exists d, stored G p m e d) /\
      exists vs, handed x m (rs_stemmer res) e (values_of adds e) vs.
Proof. exact changes_imply_valid. Qed.
Print Assumptions C46_checked_before_changes.

Theorem C46_never_panics : forall x L fo uo G o1 o2 o3 p adds vanilla r f,
  (r = None -> load_engine_shared_resources x L fo uo f p <> Panic) ->
  (forall f d, gz_load G f d <> Panic) -> (forall g vs b b', gz_inject G g vs b b' <> Panic) ->
  (forall f d, snd (gz_remove G f d) <> Panic) -> (forall f d g, snd (gz_dump G f d g) <> Panic) ->
  snd (inject x L fo uo G o1 o2 o3 (request p adds vanilla r) f) <> Panic.
Proof. exact never_panics. Qed.
Print Assumptions C46_never_panics.

Example C46_case :
  metadata inj_loader orders0 inj_tree dir_e inj_meta /\
  run_demo (adds ++ [($"snips/number", $"two")]) false = ([], Err EInjectionUnknown) /\
  run_demo (adds ++ [($"planet", $"mars")]) false = ([], Err EInjectionUnknown) /\
  run_demo (adds ++ [($"ghost", $"casper")]) false = ([], Err EInjectionUnknown) /\
  is_custom inj_meta $"ghost" /\
  inject demo_ext inj_loader orders0 units0 demo_gaz id_order id_order id_order
    (request dir_e adds false (Some demo_res)) inj_tree = ([], Err EOther) /\
  inject demo_ext inj_loader orders0 units0 demo_gaz id_order id_order id_order
    (request dir_e adds false None) (tree "E") = ([], Err EOther) /\
  length (fst (run_demo adds false)) = 8.
Proof.
  split; [exact inj_metadata|]. split; [vm_compute; reflexivity|]. split; [vm_compute; reflexivity|].
  split; [vm_compute; reflexivity|]. split; [right; right; left; reflexivity|].
  split; [vm_compute; reflexivity|]. split; vm_compute; reflexivity.
Qed.

(** ** C47 *)

(** Each requested entity gets, once, the values given for it. *)
Theorem C47_injected : forall x L fo uo G o1 o2 o3 p adds vanilla r f m t,
  gaz_ok G -> metadata L fo f p m -> separate G p m adds ->
  inject x L fo uo G o1 o2 o3 (request p adds vanilla r) f = (t, Ok tt) ->
  exists res, resources_used x L fo uo f p r res /\
  forall e, requested adds e ->
    exists d, stored G p m e d /\ updated G x m (rs_stemmer res) vanilla adds f (apply_ops f t) e d.
Proof. exact injected. Qed.
Print Assumptions C47_injected.

(** Values are added to the entities, and resources are loaded, unless the request says otherwise:
    the effect of an injector on which neither was set. *)
Theorem C47_defaults : forall x L fo uo G o1 o2 o3 p adds f,
  inject x L fo uo G o1 o2 o3 (fold_left (fun ij a => add_value ij (fst a) (snd a)) adds (injector_new p)) f =
  inject x L fo uo G o1 o2 o3 (request p adds false None) f.
Proof. exact inject_defaults. Qed.
Print Assumptions C47_defaults.

(** Nothing else changes, even if the injection fails or is interrupted. *)
Theorem C47_rest_unchanged : forall x L fo uo G o1 o2 o3 p adds vanilla r f m t1 t2 q,
  gaz_ok G -> metadata L fo f p m ->
  fst (inject x L fo uo G o1 o2 o3 (request p adds vanilla r) f) = t1 ++ t2 ->
  (forall e d, requested adds e -> stored G p m e d -> ~ at_or_below (resolve d) q) ->
  apply_ops f t1 q = f q.
Proof. exact rest_unchanged. Qed.
Print Assumptions C47_rest_unchanged.

Theorem C47_other_entities : forall x L fo uo G o1 o2 o3 p adds vanilla r f m t1 t2 d,
  gaz_ok G -> metadata L fo f p m ->
  fst (inject x L fo uo G o1 o2 o3 (request p adds vanilla r) f) = t1 ++ t2 ->
  (forall e d', requested adds e -> stored G p m e d' -> apart (resolve d') (resolve d)) ->
  same_below (resolve d) f (apply_ops f t1) /\ gz_load G (apply_ops f t1) d = gz_load G f d.
Proof. exact others_unchanged. Qed.
Print Assumptions C47_other_entities.

Theorem C47_hash_order : forall x L fo uo G o1 o2 o3 o1' o2' o3' p adds vanilla r f m t t' e d,
  gaz_ok G -> metadata L fo f p m -> separate G p m adds ->
  inject x L fo uo G o1 o2 o3 (request p adds vanilla r) f = (t, Ok tt) ->
  inject x L fo uo G o1' o2' o3' (request p adds vanilla r) f = (t', Ok tt) ->
  requested adds e -> stored G p m e d ->
  gz_load G (apply_ops f t) d = gz_load G (apply_ops f t') d.
Proof. exact hash_order. Qed.
Print Assumptions C47_hash_order.

(** A request that can be served is served. *)
Theorem C47_succeeds : forall x L fo uo G o1 o2 o3 p adds vanilla r f m res,
  gaz_ok G -> metadata L fo f p m -> separate G p m adds -> resources_used x L fo uo f p r res ->
  (forall e, requested adds e -> exists d g, stored G p m e d /\ gz_load G f d = Ok g) ->
  (cu_usage (me_custom m) = WithoutStems \/ exists st, rs_stemmer res = Some st) ->
  (forall g vs, exists g', gz_inject G g vs true vanilla = Ok g') ->
  (forall f d, snd (gz_remove G f d) = Ok tt) -> (forall f d g, snd (gz_dump G f d g) = Ok tt) ->
  exists t, inject x L fo uo G o1 o2 o3 (request p adds vanilla r) f = (t, Ok tt).
Proof. exact succeeds. Qed.
Print Assumptions C47_succeeds.

(** But a failed injection may have changed some of the entities. *)
Theorem C47_all_or_nothing_refuted : exists x L fo uo G o1 o2 o3 p adds f m e d e' d' t er,
  gaz_ok G /\ metadata L fo f p m /\ separate G p m adds /\
  requested adds e /\ stored G p m e d /\ requested adds e' /\ stored G p m e' d' /\
  inject x L fo uo G o1 o2 o3 (request p adds false None) f = (t, Err er) /\
  gz_load G (apply_ops f t) d <> gz_load G f d /\ gz_load G (apply_ops f t) d' = gz_load G f d'.
Proof. exact partly_applied. Qed.
Print Assumptions C47_all_or_nothing_refuted.

Example C47_case :
  gaz_ok demo_gaz /\ metadata inj_loader orders0 inj_tree dir_e inj_meta /\ separate demo_gaz dir_e inj_meta adds /\
  requested adds $"room" /\ stored demo_gaz dir_e inj_meta $"room" p1 /\
  (forall e d, requested adds e -> stored demo_gaz dir_e inj_meta e d -> apart (resolve d) (resolve p2)) /\
  snd (run_demo adds false) = Ok tt /\ snd (run_rev adds false) = Ok tt /\
  gz_load demo_gaz (apply_ops inj_tree (fst (run_demo adds false))) p1 =
    Ok (lines ["attics=Attics"; "cellar=cellar"; "attic=Attics"; "hall=hall"]) /\
  gz_load demo_gaz (apply_ops inj_tree (fst (run_rev adds false))) p1 =
    Ok (lines ["attics=Attics"; "cellar=cellar"; "attic=Attics"; "hall=hall"]) /\
  gz_load demo_gaz (apply_ops inj_tree (fst (run_demo adds true))) artist = Ok (lines ["abba=Abba"]) /\
  gz_load demo_gaz (apply_ops inj_tree (fst (run_demo adds true))) p2 = Ok (lines ["red=red"]).
Proof.
  split; [exact demo_gaz_ok|]. split; [exact inj_metadata|]. split; [exact adds_separate|].
  split; [apply adds_requested; auto|]. split; [exact room_stored|]. split; [exact color_apart|].
  repeat (split; [vm_compute; reflexivity|]). vm_compute. reflexivity.
Qed.

(** ** C48 *)

(** At every crash point, all requested entities but one have their old files or their new
    parser.  (What is elsewhere is intact: C47_rest_unchanged.) *)
Theorem C48_crash_point : forall x L fo uo G o1 o2 o3 p adds vanilla r f m t1 t2,
  gaz_ok G -> metadata L fo f p m -> separate G p m adds ->
  fst (inject x L fo uo G o1 o2 o3 (request p adds vanilla r) f) = t1 ++ t2 ->
  exists e0, forall e d, requested adds e -> e <> e0 -> stored G p m e d ->
    same_below (resolve d) f (apply_ops f t1) \/
    exists res, resources_used x L fo uo f p r res /\
      updated G x m (rs_stemmer res) vanilla adds f (apply_ops f t1) e d.
Proof. exact crash. Qed.
Print Assumptions C48_crash_point.

(** Every successful injection goes, for every entity, through a state where its parser is
    lost, and from which no later injection of that entity succeeds. *)
Theorem C48_crash_loses_entity : forall x L fo uo G o1 o2 o3 p adds vanilla r f m t e d,
  gaz_ok G -> metadata L fo f p m -> separate G p m adds ->
  (forall e d q, requested adds e -> stored G p m e d -> In q (meta_files p m) ->
     ~ at_or_below (resolve d) (resolve q)) ->
  inject x L fo uo G o1 o2 o3 (request p adds vanilla r) f = (t, Ok tt) ->
  requested adds e -> stored G p m e d ->
  exists t1 t2, t = t1 ++ t2 /\
    (exists er, gz_load G (apply_ops f t1) d = Err er) /\
    forall p1 p2 p3 adds' vanilla' r', requested adds' e -> separate G p m adds' ->
      snd (inject x L fo uo G p1 p2 p3 (request p adds' vanilla' r') (apply_ops f t1)) <> Ok tt.
Proof. exact crash_no_retry. Qed.
Print Assumptions C48_crash_loses_entity.

(** The engine itself no longer loads then. *)
Theorem C48_crash_loses_engine : forall x L fo uo G shape ngrams mx o1 o2 o3 p adds vanilla r f m t e d,
  gaz_ok G -> gazetteer_needed L -> metadata L fo f p m -> separate G p m adds ->
  (forall e d q, requested adds e -> stored G p m e d -> In q (meta_files p m) ->
     ~ at_or_below (resolve d) (resolve q)) ->
  inject x L fo uo G o1 o2 o3 (request p adds vanilla r) f = (t, Ok tt) ->
  requested adds e -> is_custom m e -> stored G p m e d ->
  exists t1 t2, t = t1 ++ t2 /\ forall en, from_path x shape ngrams mx L fo uo (apply_ops f t1) p <> Ok en.
Proof. exact crash_lost_engine. Qed.
Print Assumptions C48_crash_loses_engine.

(** No crash is needed: when writing fails, the call returns an error and the previous parser
    is lost. *)
Theorem C48_failure_keeps_parser_refuted : exists x L fo uo G o1 o2 o3 p adds f m e d t er,
  gaz_ok G /\ metadata L fo f p m /\ separate G p m adds /\ requested adds e /\ stored G p m e d /\
  inject x L fo uo G o1 o2 o3 (request p adds false None) f = (t, Err er) /\
  (exists g, gz_load G f d = Ok g) /\ gone (apply_ops f t) (resolve d).
Proof. exact failed_write. Qed.
Print Assumptions C48_failure_keeps_parser_refuted.

Example C48_case :
  gaz_ok demo_gaz /\ gazetteer_needed inj_loader /\ metadata inj_loader orders0 inj_tree dir_e inj_meta /\
  separate demo_gaz dir_e inj_meta adds /\
  (forall e d q, requested adds e -> stored demo_gaz dir_e inj_meta e d -> In q (meta_files dir_e inj_meta) ->
     ~ at_or_below (resolve d) (resolve q)) /\
  snd (run_demo adds false) = Ok tt /\
  requested adds $"room" /\ is_custom inj_meta $"room" /\ stored demo_gaz dir_e inj_meta $"room" p1 /\
  is_ok (from_path demo_ext (fun s => s) no_ngrams Demo_Prob.demo_math inj_loader orders0 units0 inj_tree dir_e) = true.
Proof.
  split; [exact demo_gaz_ok|]. split; [exact inj_needed|]. split; [exact inj_metadata|].
  split; [exact adds_separate|]. split; [exact adds_outside|]. split; [vm_compute; reflexivity|].
  split; [apply adds_requested; auto|]. split; [left; reflexivity|]. split; [exact room_stored|].
  vm_compute. reflexivity.
Qed.

(** ** C49 *)

(** The values handed to the parser of a custom entity. *)
Theorem C49_custom_values : forall x l u stemmer values vs,
  stem_entity_value x l u stemmer (normalize_entity_value x values) = Ok vs <-> given x l u stemmer values vs.
Proof. exact given_iff. Qed.
Print Assumptions C49_custom_values.

(** It fails exactly when stems are needed and there is no stemmer; it never panics. *)
Theorem C49_no_stemmer : forall x l u stemmer values,
  u <> WithoutStems /\ stemmer = None /\ values <> [] <->
  stem_entity_value x l u stemmer (normalize_entity_value x values) = Err EOther.
Proof. exact stem_fails_iff. Qed.
Print Assumptions C49_no_stemmer.

Theorem C49_never_panics : forall x l u stemmer values,
  stem_entity_value x l u stemmer (normalize_entity_value x values) <> Panic.
Proof. exact stem_no_panic. Qed.
Print Assumptions C49_never_panics.

Example C49_case :
  let st s := if str_eqb s $"attics" then $"attic" else s in
  let run u := stem_entity_value demo_ext EN u (Some st)
                 (normalize_entity_value demo_ext [$"Big Attics"; $"hall"; $"Big Attics"]) in
  run WithAndWithoutStems = Ok [mkGV $"Big Attics" $"big attics"; mkGV $"hall" $"hall"; mkGV $"Big Attics" $"big attic"] /\
  run WithoutStems = Ok [mkGV $"Big Attics" $"big attics"; mkGV $"hall" $"hall"] /\
  run WithStems = Ok [mkGV $"Big Attics" $"big attic"; mkGV $"hall" $"hall"; mkGV $"Big Attics" $"big attic"] /\
  stem_entity_value demo_ext EN WithStems None (normalize_entity_value demo_ext [$"hall"]) = Err EOther.
Proof. vm_compute. repeat split. Qed.
