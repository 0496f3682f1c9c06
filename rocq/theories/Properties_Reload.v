(** Properties of engines loaded after an injection: C81.
    [Print Assumptions] beneath each theorem lists what it rests on. *)
From Coq Require Import String List NArith ZArith Bool Arith.
From Verif Require Import Base F32 M_Types M_Engine M_Features M_Filler M_Prob M_Res M_Fs M_Json M_Load
  M_Inject S_Base S_Engine S_Load S_Inject S_Answer S_Reload
  P_Base P_Reload Demo Demo_Prob Demo_Crf Demo_Load Demo_Home Demo_Inject Demo_Reload.
Import ListNotations.
Local Open Scope string_scope.
Local Open Scope list_scope.
Local Open Scope nat_scope.

(** ** C81 *)
(** Whatever is injected, and wherever the injection stops, an engine loaded from the directory
    afterwards is what the files of before describe, with the entity parsers of after. *)
Theorem C81_only_entities : forall x shape ngrams mx L fo uo G o1 o2 o3 p adds b r f m t1 t2,
  gaz_ok G -> metadata L fo f p m -> tidy p m -> taggers_local L -> names_stay L f p m ->
  fst (inject x L fo uo G o1 o2 o3 (request p adds b r) f) = t1 ++ t2 ->
  from_path x shape ngrams mx L fo uo (apply_ops f t1) p =
  from_path x shape ngrams mx (entities_from L (apply_ops f t1)) fo uo f p.
Proof. exact reload. Qed.
Print Assumptions C81_only_entities.

(** An engine that loaded before a successful injection loads after it, with the same dataset
    metadata and the same resources. *)
Theorem C81_still_loads : forall x shape ngrams mx L fo uo G make make_builtin o1 o2 o3 p adds b r f m t en,
  gaz_ok G -> assembled L G make make_builtin -> taggers_local L -> metadata L fo f p m -> tidy p m -> names_stay L f p m ->
  inject x L fo uo G o1 o2 o3 (request p adds b r) f = (t, Ok tt) ->
  from_path x shape ngrams mx L fo uo f p = Ok en ->
  exists en', from_path x shape ngrams mx L fo uo (apply_ops f t) p = Ok en' /\
    en_dataset en' = en_dataset en /\ same_but_entities (en_resources en) (en_resources en').
Proof. exact still_loads. Qed.
Print Assumptions C81_still_loads.

(** Its entity parsers are put together from the gazetteer parsers of before, each requested
    entity's updated once with the requested values, the others untouched. *)
Theorem C81_new_values : forall x shape ngrams mx L fo uo G make make_builtin o1 o2 o3 p adds b r f m t en j,
  gaz_ok G -> assembled L G make make_builtin -> metadata L fo f p m -> tidy p m ->
  json_at L f (pjoin (builtin_dir p m) $"metadata.json") j ->
  inject x L fo uo G o1 o2 o3 (request p adds b r) f = (t, Ok tt) ->
  from_path x shape ngrams mx L fo uo (apply_ops f t) p = Ok en ->
  exists res l mk gs gs' bs bs', resources_used x L fo uo f p r res /\
    ld_lang L (cu_language (me_custom m)) = Some l /\ make_builtin j = Some mk /\
    custom_loaded G f p m gs /\ builtin_loaded G f p m bs /\
    custom_after G x p m (rs_stemmer res) b adds gs gs' /\ builtin_after G x p m (rs_stemmer res) b adds bs bs' /\
    rs_custom (en_resources en) = custom_entities x l (make gs') /\
    (forall s kinds cached n, rs_builtin (en_resources en) s kinds cached n = mk bs' (x_lower x s) kinds n).
Proof. exact new_values. Qed.
Print Assumptions C81_new_values.

Example C81_case :
  gaz_ok demo_gaz /\ assembled re_loader demo_gaz re_custom (fun _ => Some re_builtin) /\ taggers_local re_loader /\
  metadata re_loader orders0 re_tree dir_e re_meta /\ tidy dir_e re_meta /\ names_stay re_loader re_tree dir_e re_meta /\
  re_run = (fst re_run, Ok tt) /\ length (fst re_run) = 8 /\
  load_re re_tree = Ok re_engine /\ load_re re_after = Ok re_engine' /\
  (re_answer re_engine "please brighten the ATTIC" = (Some $"lightOn", []) /\
   re_answer re_engine' "please brighten the ATTIC" = (Some $"lightOn", [($"ATTIC", SVCustom $"Attic")]) /\
   re_answer re_engine "please brighten the KITCHEN" = (Some $"lightOn", [($"KITCHEN", SVCustom $"Kitchen")]) /\
   re_answer re_engine' "please brighten the KITCHEN" = (Some $"lightOn", [($"KITCHEN", SVCustom $"Kitchen")])).
Proof.
  split; [exact demo_gaz_ok|]. split; [exact re_assembled|]. split; [exact re_taggers|].
  split; [exact re_metadata|]. split; [exact re_tidy|]. split; [exact re_stay|]. split; [exact re_done|].
  split; [vm_compute; reflexivity|]. split; [exact re_eq|]. split; [exact re_eq'|exact re_answers].
Qed.
