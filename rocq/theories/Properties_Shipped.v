(** Examples: the theorems about loaded engines apply to the trained engine that the
    repository ships (data/tests/models/nlu_engine_beverage), read from its files. *)
From Coq Require Import String List NArith ZArith.
From Verif Require Import Base F32 M_Types M_Engine M_Fs M_Json M_Load S_Base S_Engine S_Load S_Safe
  P_Load Properties_Load Properties_Safe Demo Tests_Base Tests_Features Tests_Classifier Tests_Beverage Demo_Shipped.
Import ListNotations.

(** ** C60 *)
Example C60_shipped :
  classifiers_with_null test_loader beverage_tree /\
  from_path test_ext test_shape test_ngrams test_math test_loader (fun _ _ => id_order) (fun _ _ => id_order)
    beverage_tree beverage_dir = Ok shipped /\
  forall o1 o2 input w b n salts res, (w <> None \/ b <> None) ->
    parse_with_alternatives test_ext o1 o2 shipped input w b n salts = Ok res ->
    (forall i, ir_name (ps_intent res) = Some i -> known shipped i /\ allowed w b i) /\
    (forall a i, In a (ps_alternatives res) -> ir_name (al_intent a) = Some i -> known shipped i /\ allowed w b i).
Proof.
  split; [exact shipped_null|]. split; [exact shipped_loaded|].
  intros o1 o2 input w b n salts res.
  exact (C60_loaded_engine_honours_filters _ _ _ _ _ _ _ o1 o2 _ _ _ input w b n salts res shipped_null shipped_loaded).
Qed.

(** ** C68 *)
Example C68_shipped :
  externals_behave test_ext test_math test_loader beverage_tree /\
  sound_files test_loader (fun _ _ => id_order) beverage_tree /\
  texts_below_limit test_ext (en_resources shipped) two_coffees /\
  (let* r := parse test_ext id_order id_order shipped two_coffees None None in Ok (name_and_slots r)) =
    Ok (Some $"MakeCoffee", [cups $"two" (8, 11)]) /\
  forall input o1 o2 w b n salts, texts_below_limit test_ext (en_resources shipped) input ->
    parse_with_alternatives test_ext o1 o2 shipped input w b n salts <> Panic.
Proof.
  split; [exact (shipped_externals _)|]. split; [exact shipped_sound|]. split; [exact shipped_texts|].
  split; [vm_compute; reflexivity|]. intros input o1 o2 w b n salts T.
  exact (proj1 (C68_loaded_engine_never_panics _ _ _ _ _ _ _ _ (shipped_externals _) shipped_sound _ _ input shipped_loaded T)
           o1 o2 w b n salts).
Qed.

(** ** C69 *)
Example C69_shipped :
  crash_free_files test_loader beverage_tree /\ loaders_calm test_loader beverage_tree.
Proof. split; [exact shipped_crash_free|exact shipped_calm]. Qed.
