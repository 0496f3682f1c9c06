(** The unit tests of [extract_custom_slot] in src/nlu_engine.rs:908-1068, replayed on the model.
    Those that load an engine are in Tests_Beverage. *)
From Coq Require Import String List NArith ZArith Bool Arith.
From Verif Require Import Base Sorting F32 M_Types M_Utils M_Engine Demo Tests_Base.
Import ListNotations.
Local Open Scope list_scope.
Local Open Scope nat_scope.

Definition entity_parser : list (str * list CustomEntity) :=
  [($"hello a b c d world",
    [mkCE $"a b" $"value1" [] (6, 9) $"entity"; mkCE $"b c d" $"value2" [] (8, 13) $"entity"])].

Example test_extract_custom_slot_when_tagged :
  extract_custom_slot $"hello a b c d world" $"entity" $"slot" true (mocked_custom entity_parser) 0
  = Ok (Some (mkSlot $"b c d" (SVCustom $"value2") [] (8, 13) $"entity" $"slot" None)).
Proof. vm_compute. reflexivity. Qed.

Example test_extract_custom_slot_when_not_tagged :
  extract_custom_slot $"hello world" $"entity" $"slot" true (mocked_custom []) 0
  = Ok (Some (mkSlot $"hello world" (SVCustom $"hello world") [] (0, 11) $"entity" $"slot" None)).
Proof. vm_compute. reflexivity. Qed.

Example test_do_not_extract_custom_slot_when_not_extensible :
  extract_custom_slot $"hello world" $"entity" $"slot" false (mocked_custom []) 0 = Ok None.
Proof. vm_compute. reflexivity. Qed.

Definition invader : str := $"I want to play to invader".

Example test_extract_custom_slot_with_alternative :
  extract_custom_slot invader $"game" $"game" false
    (mocked_custom [(invader, [mkCE $"invader" $"Space Invader" [ $"Invader Attack" ] (18, 25) $"game"])]) 0
  = Ok (Some (mkSlot $"invader" (SVCustom $"Space Invader") [SVCustom $"Invader Attack"] (18, 25)
                $"game" $"game" None)).
Proof. vm_compute. reflexivity. Qed.
