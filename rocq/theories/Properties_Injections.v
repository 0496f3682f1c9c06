(** Properties of histories of injections: C91.
    [Print Assumptions] beneath each theorem lists what it rests on. *)
From Coq Require Import String List NArith ZArith Bool Arith.
From Verif Require Import Base F32 M_Types M_Engine M_Features M_Filler M_Prob M_Res M_Fs M_Json M_Load
  M_Inject S_Base S_Engine S_Load S_Inject S_Answer S_Reload S_Injections
  P_Base P_Injections Demo Demo_Prob Demo_Crf Demo_Load Demo_Home Demo_Inject Demo_Reload Demo_Injections.
Import ListNotations.
Local Open Scope string_scope.
Local Open Scope list_scope.
Local Open Scope nat_scope.

(** ** C91 *)
(** After any history, the parser of an entity for which no injection was cut short has been
    updated once for each injection that gives it values, in order; it is the same as before if
    none does.  What the other injections give, and whether they succeed, does not matter. *)
Theorem C91_values : forall x shape ngrams mx L fo uo G p m f en l f' e d,
  gaz_ok G -> metadata L fo f p m -> tidy p m -> names_stay L f p m ->
  from_path x shape ngrams mx L fo uo f p = Ok en ->
  happened x L fo uo G p f l f' -> stored G p m e d ->
  (forall rq, In (rq, false) l -> ~ requested (rq_adds rq) e) ->
  (given e l = [] /\ gz_load G f' d = gz_load G f d) \/
  exists g g', gz_load G f d = Ok g /\ gz_load G f' d = Ok g' /\ grows G x m en e (given e l) g g'.
Proof. exact values. Qed.
Print Assumptions C91_values.

(** Whatever happens, a file outside the directories of the parsers of the requested entities is
    the one of before. *)
Theorem C91_elsewhere : forall x L fo uo G p m f l f' q,
  gaz_ok G -> metadata L fo f p m -> tidy p m -> happened x L fo uo G p f l f' ->
  (forall rq b e d, In (rq, b) l -> requested (rq_adds rq) e -> stored G p m e d -> ~ at_or_below (resolve d) q) ->
  f' q = f q.
Proof. exact elsewhere. Qed.
Print Assumptions C91_elsewhere.

(** After successful injections the engine still loads, with the same dataset metadata and
    resources. *)
Theorem C91_still_loads : forall x shape ngrams mx L fo uo G make make_builtin p m f en l f',
  gaz_ok G -> assembled L G make make_builtin -> taggers_local L ->
  metadata L fo f p m -> tidy p m -> names_stay L f p m -> happened x L fo uo G p f l f' -> all_done l ->
  from_path x shape ngrams mx L fo uo f p = Ok en ->
  exists en', from_path x shape ngrams mx L fo uo f' p = Ok en' /\
    en_dataset en' = en_dataset en /\ same_but_entities (en_resources en) (en_resources en').
Proof. exact still_loads_all. Qed.
Print Assumptions C91_still_loads.

(** Two histories that give the same values to an entity, in the same order, leave the same
    parser for it. *)
Theorem C91_same_values : forall x shape ngrams mx L fo uo G p m f en l1 l2 f1 f2 e d,
  gaz_ok G -> metadata L fo f p m -> tidy p m -> names_stay L f p m ->
  from_path x shape ngrams mx L fo uo f p = Ok en ->
  happened x L fo uo G p f l1 f1 -> happened x L fo uo G p f l2 f2 -> stored G p m e d ->
  (forall rq, In (rq, false) l1 \/ In (rq, false) l2 -> ~ requested (rq_adds rq) e) ->
  given e l1 = given e l2 -> gz_load G f1 d = gz_load G f2 d.
Proof. exact same_values. Qed.
Print Assumptions C91_same_values.

(** Two successful histories that give the same values to each entity, in the same order, leave
    the same engine: injections into different entities can be exchanged, put together in one
    request or divided. *)
Theorem C91_same_engine : forall x shape ngrams mx L fo uo G make make_builtin p m f en l1 l2 f1 f2,
  gaz_ok G -> assembled L G make make_builtin -> taggers_local L ->
  metadata L fo f p m -> tidy p m -> names_stay L f p m -> from_path x shape ngrams mx L fo uo f p = Ok en ->
  happened x L fo uo G p f l1 f1 -> happened x L fo uo G p f l2 f2 -> all_done l1 -> all_done l2 ->
  (forall e, given e l1 = given e l2) ->
  exists en', from_path x shape ngrams mx L fo uo f1 p = Ok en' /\ from_path x shape ngrams mx L fo uo f2 p = Ok en'.
Proof. exact same_engine. Qed.
Print Assumptions C91_same_engine.

(** Finding: once the parser of one entity does not load (C48: an interrupted injection can leave
    it so), injections into any entity fail and change nothing, unless they come with resources. *)
Theorem C91_stuck : forall x L fo uo G make make_builtin p m f l f' d,
  assembled L G make make_builtin -> metadata L fo f p m ->
  In d (listed p m) -> (forall g, gz_load G f d <> Ok g) -> happened x L fo uo G p f l f' ->
  (forall rq b, In (rq, b) l -> rq_resources rq = None) ->
  f' = f /\ forall rq b, In (rq, b) l -> b = false.
Proof. exact stuck. Qed.
Print Assumptions C91_stuck.

Example C91_case :
  gaz_ok demo_gaz /\ assembled re_loader demo_gaz re_custom (fun _ => Some re_builtin) /\ taggers_local re_loader /\
  metadata re_loader orders0 re_tree dir_e re_meta /\ tidy dir_e re_meta /\ names_stay re_loader re_tree dir_e re_meta /\
  load_re re_tree = Ok re_engine /\ happened_re re_tree hs1 hs1_tree /\ happened_re re_tree hs2 hs2_tree /\
  happened_re re_tree hs3 hs3_tree /\ all_done hs1 /\ all_done hs2 /\ (forall e, given e hs1 = given e hs2) /\
  load_re hs1_tree = Ok hs1_engine /\
  (re_answer hs1_engine "please brighten the GARAGE" = (Some $"lightOn", [($"GARAGE", SVCustom $"Garage")]) /\
   re_answer hs2_engine "please brighten the ATTIC" = (Some $"lightOn", [($"ATTIC", SVCustom $"Attic")])) /\
  stored demo_gaz dir_e re_meta $"room" room_dir /\
  (forall rq, In (rq, false) hs3 -> ~ requested (rq_adds rq) $"room") /\ length (given $"room" hs3) = 1 /\
  gz_load demo_gaz hs3_tree room_dir =
    Ok ($"attic=Attic" ++ [newline] ++ $"cellar=Cellar" ++ [newline] ++ $"kitchen=Kitchen" ++ [newline]) /\
  In color_dir (listed dir_e re_meta) /\ gz_load demo_gaz hs3_cut color_dir = Err EIo /\
  snd (run_of rooms hs3_cut) = Err EOther.
Proof.
  split; [exact demo_gaz_ok|]. split; [exact re_assembled|]. split; [exact re_taggers|].
  split; [exact re_metadata|]. split; [exact re_tidy|]. split; [exact re_stay|]. split; [exact re_eq|].
  split; [exact hs1_happened|]. split; [exact hs2_happened|]. split; [exact hs3_happened|].
  split; [exact (proj1 hs_all_done)|]. split; [exact (proj2 hs_all_done)|]. split; [exact hs_given|]. split; [exact hs1_eq|].
  split; [exact hs_answers|]. split; [exact room_stored|].
  split; [intros rq [J|[J|[]]]; inversion J; subst; intros (v & [K|[]]); discriminate|].
  split; [vm_compute; reflexivity|]. split; [vm_compute; reflexivity|]. split; [vm_compute; auto|]. split; vm_compute; reflexivity.
Qed.
