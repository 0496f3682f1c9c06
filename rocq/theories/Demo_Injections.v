(** Histories of injections into the engine of Demo_Reload: the same values, given in one request
    and then another, or one entity at a time in another order; and a history with an interrupted
    injection. *)
From Coq Require Import String List NArith ZArith Bool Arith Lia.
From Verif Require Import Base F32 M_Types M_Engine M_Det M_Lookup M_Feat M_Prob M_Features M_Filler
  M_Cache M_Res M_Fs M_Json M_Load M_Inject S_Base S_Engine S_Res S_Load S_Inject S_Answer S_Reload S_Injections
  P_Base P_Load P_Names P_Inject P_Effects P_Injection P_Reload P_Injections
  Demo Demo_Rules Demo_Prob Demo_Crf Demo_Load Demo_Home Demo_Inject Demo_Reload.
Import ListNotations.
Local Open Scope string_scope.
Local Open Scope list_scope.
Local Open Scope nat_scope.

Definition rq_of (adds : list (str * str)) : Request := mkRq adds false None.
Definition blue := rq_of [($"color", $"Blue")].
Definition abba := rq_of [($"snips/musicArtist", $"Abba")].
Definition rooms := rq_of [($"room", $"Attic"); ($"room", $"Cellar")].
Definition garage := rq_of [($"room", $"Garage")].

Definition run_of (rq : Request) (f : fs) : effect unit :=
  inject demo_ext re_loader orders0 units0 demo_gaz id_order id_order id_order
    (request dir_e (rq_adds rq) (rq_vanilla rq) (rq_resources rq)) f.
Definition after (rq : Request) (f : fs) : fs := apply_ops f (fst (run_of rq f)).

Definition hs1 : list (Request * bool) := [(rq_of attic, true); (blue, true); (garage, true)].
Definition hs1_tree : fs := after garage (after blue (after (rq_of attic) re_tree)).
Definition hs2 : list (Request * bool) := [(blue, true); (rooms, true); (garage, true); (abba, true)].
Definition hs2_tree : fs := after abba (after garage (after rooms (after blue re_tree))).
(** Interrupted after three of its operations: the parser of the color is not whole, and the next
    injection uses the resources of an engine loaded before. *)
Definition rooms' := mkRq (rq_adds rooms) false (Some (en_resources re_engine)).
Definition hs3 : list (Request * bool) := [(blue, false); (rooms', true)].
Definition hs3_cut : fs := apply_ops re_tree (firstn 3 (fst (run_of blue re_tree))).
Definition hs3_tree : fs := after rooms' hs3_cut.

Lemma run_done rq f : snd (run_of rq f) = Ok tt -> run_of rq f = (fst (run_of rq f), Ok tt).
Proof. intros E. destruct (run_of rq f). cbn in *. congruence. Qed.
Notation happened_re := (happened demo_ext re_loader orders0 units0 demo_gaz dir_e).
Lemma done_after rq f l f' : snd (run_of rq f) = Ok tt -> happened_re (after rq f) l f' -> happened_re f ((rq, true) :: l) f'.
Proof. intros E H. eapply happened_done; [exact (run_done rq f E)|exact H]. Qed.
Lemma hs1_happened : happened_re re_tree hs1 hs1_tree.
Proof. repeat (apply done_after; [vm_compute; reflexivity|]). apply happened_none. Qed.
Lemma hs2_happened : happened_re re_tree hs2 hs2_tree.
Proof. repeat (apply done_after; [vm_compute; reflexivity|]). apply happened_none. Qed.
Lemma hs3_happened : happened_re re_tree hs3 hs3_tree.
Proof.
  eapply (happened_cut _ _ _ _ _ _ _ blue id_order id_order id_order (firstn 3 (fst (run_of blue re_tree))) (skipn 3 (fst (run_of blue re_tree)))).
  - symmetry. apply firstn_skipn.
  - apply done_after; [vm_compute; reflexivity|]. apply happened_none.
Qed.
Lemma hs_all_done : all_done hs1 /\ all_done hs2.
Proof. split; intros rq b J; repeat (destruct J as [J|J]; [inversion J; reflexivity|]); destruct J. Qed.
Lemma hs_given e : given e hs1 = given e hs2.
Proof.
  unfold given, hs1, hs2, attic, blue, abba, rooms, garage, rq_of. cbn [flat_map fst rq_adds rq_vanilla rq_resources].
  unfold values_of. cbn [filter fst].
  destruct (str_eqb ($"room") e) eqn:E1; [apply str_eqb_spec in E1; subst; vm_compute; reflexivity|].
  destruct (str_eqb ($"snips/musicArtist") e) eqn:E2; [apply str_eqb_spec in E2; subst; vm_compute; reflexivity|].
  destruct (str_eqb ($"color") e) eqn:E3; [apply str_eqb_spec in E3; subst; vm_compute; reflexivity|].
  reflexivity.
Qed.

Definition color_of (f : fs) : outcome str := gz_load demo_gaz f (pjoin (custom_gazetteers dir_e re_meta) $"p2").
Definition room_of (f : fs) : outcome str := gz_load demo_gaz f (pjoin (custom_gazetteers dir_e re_meta) $"p1").
Definition hs1_engine : Engine := get_ok no_engine (load_re hs1_tree).
Lemma hs1_eq : load_re hs1_tree = Ok hs1_engine.
Proof. apply get_ok_eq. vm_compute. reflexivity. Qed.
Definition hs2_engine : Engine := get_ok no_engine (load_re hs2_tree).
Lemma hs_answers :
  re_answer hs1_engine "please brighten the GARAGE" = (Some $"lightOn", [($"GARAGE", SVCustom $"Garage")]) /\
  re_answer hs2_engine "please brighten the ATTIC" = (Some $"lightOn", [($"ATTIC", SVCustom $"Attic")]).
Proof. repeat split; vm_compute; reflexivity. Qed.
Definition room_dir : path := pjoin (custom_gazetteers dir_e re_meta) $"p1".
Definition color_dir : path := pjoin (custom_gazetteers dir_e re_meta) $"p2".
Lemma room_stored : stored demo_gaz dir_e re_meta $"room" room_dir.
Proof.
  left. split; [vm_compute; auto|]. exists $"p1". split; [|reflexivity].
  exists [], [($"color", $"p2")]. split; [reflexivity|]. intros [].
Qed.
