(** Concrete documents for C76. *)
From Coq Require Import String List NArith ZArith.
From Verif Require Import Base F32 M_Types M_Features M_Filler M_Json S_Load S_Format P_Base P_Format Demo Demo_Load Demo_Home.
Import ListNotations.
Local Open Scope string_scope.
Local Open Scope list_scope.
Local Open Scope nat_scope.

Definition some_dataset : json :=
  obj [("language_code", txt "en"); ("entities", obj []); ("slot_name_mappings", obj [])].
Definition twice : list (str * json) :=
  [($"room", obj [("automatically_extensible", JBool true)]); ($"room", obj [("automatically_extensible", JBool false)])].
Definition twice_dataset : list (str * json) :=
  [($"language_code", txt "en"); ($"entities", JObj twice); ($"slot_name_mappings", obj [])].
Definition plain : orders := fun _ => id_order.
Definition home_engine_document : json := match sget $"E" home_documents with Some j => j | None => JNull end.
Definition no_model : EngineModel := mkEM (mkDS [] [] []) [] [] [].

Lemma duplicates_accepted :
  ~ (forall o kvs e r, In ($"entities", JObj e) kvs -> ~ NoDup (map fst e) -> d_dataset o (JObj kvs) <> Ok r).
Proof.
  intros H. apply (H plain twice_dataset twice (mkDS $"en" [($"room", false)] [])).
  - right. left. reflexivity.
  - intros N. inversion N as [|? ? Hn _]. apply Hn. left. reflexivity.
  - vm_compute. reflexivity.
Qed.

Lemma reads j m : d_engine plain j = Ok m -> engine_document j m.
Proof. apply (proj1 (sound_exact _ _ (engine_sound plain))). Qed.
Lemma refused j e : d_engine plain j = Err e -> forall m, ~ engine_document j m.
Proof.
  intros E m H. destruct (proj1 (proj2 (sound_exact _ _ (engine_sound plain))) j m H) as [m' H']. congruence.
Qed.

Lemma documents_case :
  (exists m, engine_document home_engine_document m /\ em_parsers m = [$"rules"; $"table"; $"stats"] /\
     em_custom m = $"custom") /\
  (exists m, engine_document (JArr [some_dataset; arr ["p"]; txt "0.20.0"; txt ""; txt "b"; txt "c"]) m /\
     em_parsers m = [$"p"] /\ em_builtin m = $"b") /\
  (forall m, ~ engine_document (obj [("dataset_metadata", some_dataset); ("model_version", txt "0.20.0");
     ("training_package_version", txt ""); ("builtin_entity_parser", txt "b"); ("custom_entity_parser", txt "c")]) m) /\
  (forall m, ~ engine_document (obj [("dataset_metadata", some_dataset); ("intent_parsers", arr []); ("intent_parsers", arr []);
     ("model_version", txt "0.20.0"); ("training_package_version", txt "");
     ("builtin_entity_parser", txt "b"); ("custom_entity_parser", txt "c")]) m) /\
  (forall m, ~ engine_document (obj [("dataset_metadata", some_dataset); ("intent_parsers", JArr [JNum 1]);
     ("model_version", txt "0.20.0"); ("training_package_version", txt "");
     ("builtin_entity_parser", txt "b"); ("custom_entity_parser", txt "c")]) m).
Proof.
  split; [|split; [|split; [|split]]].
  - exists (get_ok no_model (d_engine plain home_engine_document)). split.
    + apply reads. vm_compute. reflexivity.
    + split; vm_compute; reflexivity.
  - eexists. split; [|split].
    + apply reads. vm_compute. reflexivity.
    + reflexivity.
    + reflexivity.
  - apply (refused _ EIo). vm_compute. reflexivity.
  - apply (refused _ EIo). vm_compute. reflexivity.
  - apply (refused _ EIo). vm_compute. reflexivity.
Qed.
