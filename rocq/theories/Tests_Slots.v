(** The unit tests of src/utils.rs:179-202 and src/slot_utils.rs:122-539, replayed on the
    model.  Left out: the last one of slot_utils.rs, which loads a gazetteer parser from
    disk. *)
From Coq Require Import String List NArith ZArith Bool Arith.
From Verif Require Import Base Sorting F32 M_Types M_Utils M_Engine Demo Tests_Base.
Import ListNotations.
Local Open Scope list_scope.
Local Open Scope nat_scope.

Example test_deduplicate_items_works :
  sort_by_key (fun r => Z.of_nat (rstart r))
    (deduplicate_overlapping_items ranges_overlap (fun r => (- Z.of_nat (rlen r))%Z)
       [(0, 3); (4, 8); (0, 8); (9, 13)])
  = [(0, 8); (9, 13)].
Proof. vm_compute. reflexivity. Qed.

Definition amount_slot (v : str) (a b : nat) : InternalSlot :=
  mkIS v (a, b) $"snips/amountOfMoney" $"amount".
Definition dollars (v : str) (a b : nat) : BuiltinEntity :=
  mkBE v (a, b) (SVBuiltin v) [] $"snips/amountOfMoney".

Example test_resolve_builtin_slot :
  resolve_builtin_slot test_ext (amount_slot $"8 dollars" 22 31)
    [dollars $"5 dollars" 5 14; dollars $"8 dollars" 22 31] (mocked_builtin []) 0
  = Ok (Some (mkSlot $"8 dollars" (SVBuiltin $"8 dollars") [] (22, 31) $"snips/amountOfMoney"
                $"amount" None)).
Proof. vm_compute. reflexivity. Qed.

Example test_resolve_builtin_slot_when_no_entities_found_on_whole_input :
  resolve_builtin_slot test_ext (amount_slot $"5 dollars" 5 14) []
    (mocked_builtin [($"5 dollars", [dollars $"5 dollars" 0 9])]) 0
  = Ok (Some (mkSlot $"5 dollars" (SVBuiltin $"5 dollars") [] (5, 14) $"snips/amountOfMoney"
                $"amount" None)).
Proof. vm_compute. reflexivity. Qed.

Example test_resolve_builtin_slot_with_alternatives :
  resolve_builtin_slot test_ext (mkIS $"the stones" (20, 30) $"snips/musicArtist" $"artist")
    [mkBE $"the stones" (20, 30) (SVBuiltin $"The Rolling Stones")
       [SVBuiltin $"The Crying Stones"] $"snips/musicArtist"] (mocked_builtin []) 5
  = Ok (Some (mkSlot $"the stones" (SVBuiltin $"The Rolling Stones")
                [SVBuiltin $"The Crying Stones"] (20, 30) $"snips/musicArtist" $"artist" None)).
Proof. vm_compute. reflexivity. Qed.

Definition subscriber_slot : InternalSlot := mkIS $"subscriber" (27, 37) $"userType" $"userType".
Definition publisher : CustomEntity := mkCE $"publisher" $"Publisher" [] (7, 16) $"userType".
Definition subscriber (a b : nat) (alts : list str) : CustomEntity :=
  mkCE $"subscriber" $"Subscriber" alts (a, b) $"userType".
Definition subscriber_resolved (v : str) (alts : list str) : Slot :=
  mkSlot $"subscriber" (SVCustom v) (map SVCustom alts) (27, 37) $"userType" $"userType" None.

Example test_resolve_custom_slot :
  resolve_custom_slot subscriber_slot false [publisher; subscriber 27 37 []] (mocked_custom []) 0
  = Ok (Some (subscriber_resolved $"Subscriber" [])).
Proof. vm_compute. reflexivity. Qed.

Example test_resolve_custom_slot_when_no_entities_found_on_whole_input :
  resolve_custom_slot subscriber_slot false []
    (mocked_custom [($"subscriber", [subscriber 0 10 []])]) 0
  = Ok (Some (subscriber_resolved $"Subscriber" [])).
Proof. vm_compute. reflexivity. Qed.

Example test_resolve_custom_slot_when_automatically_extensible :
  resolve_custom_slot subscriber_slot true [] (mocked_custom []) 0
  = Ok (Some (subscriber_resolved $"subscriber" [])).
Proof. vm_compute. reflexivity. Qed.

Example test_do_not_resolve_custom_slot_when_not_automatically_extensible :
  resolve_custom_slot subscriber_slot false [] (mocked_custom []) 0 = Ok None.
Proof. vm_compute. reflexivity. Qed.

Example test_resolve_custom_slot_with_alternatives :
  resolve_custom_slot subscriber_slot false
    [publisher; subscriber 27 37 [ $"Alternative Subscriber" ]] (mocked_custom []) 5
  = Ok (Some (subscriber_resolved $"Subscriber" [ $"Alternative Subscriber" ])).
Proof. vm_compute. reflexivity. Qed.
