(** Two injections and a loading at the same time on the engine of Demo_Reload. *)
From Coq Require Import String List NArith ZArith Bool Arith Lia Permutation.
From Verif Require Import Base F32 M_Types M_Engine M_Det M_Lookup M_Feat M_Prob M_Features M_Filler
  M_Cache M_Res M_Fs M_Json M_Load M_Inject M_Overlap S_Base S_Engine S_Res S_Load S_Inject S_Answer S_Reload S_Injections S_Overlap
  P_Base P_Load P_Names P_Inject P_Effects P_Injection P_Reload P_Injections P_Overlap
  Demo Demo_Rules Demo_Prob Demo_Crf Demo_Load Demo_Home Demo_Inject Demo_Reload Demo_Injections.
Import ListNotations.
Local Open Scope string_scope.
Local Open Scope list_scope.
Local Open Scope nat_scope.

Notation run_re := (run demo_ext demo_shape no_ngrams demo_math re_loader orders0 units0 demo_gaz).
Definition blue' := mkRq (rq_adds blue) false (Some (en_resources re_engine)).
Definition call_of (rq : Request) : Call := Injects id_order id_order id_order rq.
Definition ov_calls : list Call := [call_of rooms'; call_of blue'; Loads].
(** The loading begins first; the injections take turns until both have ended; then the loading
    reads the parser of the color and ends. *)
Definition ov_sched : list (nat * action) :=
  [(2, Go)] ++ concat (repeat [(0, Go); (1, Go)] 20) ++ [(2, Look [at_ "e/custom/parser/p2/data"]); (2, Go)].
Definition ov_world : world demo_gaz := run_re (begun demo_gaz dir_e re_tree ov_calls) ov_sched.
Definition ov_tree : fs := fst ov_world.

Definition done_at (w : world demo_gaz) (i : nat) : bool :=
  match nth_error (snd w) i with Some (_, Injected _ (Ok tt)) => true | _ => false end.
Lemma done_at_ok w i : done_at w i = true -> stage_at demo_gaz w i (Injected demo_gaz (Ok tt)).
Proof.
  unfold done_at, stage_at. destruct (nth_error (snd w) i) as [[t s]|]; [|discriminate].
  destruct s as [| | | | | |[[]| |]|]; intros E; try discriminate. exists t. reflexivity.
Qed.
Definition result_at (w : world demo_gaz) (i : nat) : outcome Engine :=
  match nth_error (snd w) i with Some (_, Loaded _ r) => r | _ => Panic end.
Definition loaded_at (w : world demo_gaz) (i : nat) : bool :=
  match nth_error (snd w) i with Some (_, Loaded _ _) => true | _ => false end.
Lemma loaded_at_ok w i : loaded_at w i = true -> stage_at demo_gaz w i (Loaded demo_gaz (result_at w i)).
Proof.
  unfold loaded_at, result_at, stage_at. destruct (nth_error (snd w) i) as [[t s]|]; [|discriminate].
  destruct s; intros E; try discriminate. exists t. reflexivity.
Qed.
Lemma ov_done i rq : injects ov_calls i rq -> stage_at demo_gaz ov_world i (Injected demo_gaz (Ok tt)).
Proof.
  intros (o1 & o2 & o3 & E). destruct i as [|[|[|i]]]; cbn in E; [| |discriminate|destruct i; discriminate];
    apply done_at_ok; vm_compute; reflexivity.
Qed.
Lemma ov_loaded : stage_at demo_gaz ov_world 2 (Loaded demo_gaz (result_at ov_world 2)).
Proof. apply loaded_at_ok. vm_compute. reflexivity. Qed.
Lemma ov_distinct : distinct ov_calls.
Proof.
  intros i j ri rj e (a1 & a2 & a3 & A) (b1 & b2 & b3 & B) (v & I) (u & J).
  destruct i as [|[|[|i]]]; cbn in A; [| |discriminate|destruct i; discriminate];
  destruct j as [|[|[|j]]]; cbn in B; try discriminate; try (destruct j; discriminate); try reflexivity; exfalso;
    injection A as _ _ _ <-; injection B as _ _ _ <-; cbn in I, J; intuition congruence.
Qed.
(** One after the other. *)
Definition ov_history : list (Request * bool) := [(blue', true); (rooms', true)].
Definition ov_serial : fs := after rooms' (after blue' re_tree).
Lemma ov_happened : happened_re re_tree ov_history ov_serial.
Proof. repeat (apply done_after; [vm_compute; reflexivity|]). apply happened_none. Qed.
Lemma ov_all_done : all_done ov_history.
Proof. intros rq b J; repeat (destruct J as [J|J]; [inversion J; reflexivity|]); destruct J. Qed.
Lemma ov_permutation : Permutation (map fst ov_history) (requests ov_calls).
Proof. apply perm_swap. Qed.

(** What the loading saw: the color after its injection, the room before. *)
Definition ov_engine : Engine := get_ok no_engine (result_at ov_world 2).
Lemma ov_engine_eq : result_at ov_world 2 = Ok ov_engine.
Proof. apply get_ok_eq. vm_compute. reflexivity. Qed.
Definition after_engine : Engine := get_ok no_engine (load_re ov_tree).
Lemma ov_answers :
  re_answer ov_engine "please brighten the ATTIC" = (Some $"lightOn", []) /\
  re_answer after_engine "please brighten the ATTIC" = (Some $"lightOn", [($"ATTIC", SVCustom $"Attic")]).
Proof. split; vm_compute; reflexivity. Qed.

Lemma re_needed : gazetteer_needed re_loader.
Proof.
  intros f dir ps e name (j & J & D) I Hg. cbn [re_loader ld_gazetteer]. unfold re_parsers. rewrite (re_json_ok _ _ _ _ J), D. cbn [bind].
  assert (M : exists er, mapM (fun ep => let* g := inj_load f (pjoin dir (snd ep)) in Ok (fst ep, g)) ps = Err er).
  { clear -I Hg. induction ps as [|[e' n'] ps IH]; [contradiction|]. cbn [mapM snd].
    destruct I as [I|I].
    - inv I. unfold inj_load, data_file. rewrite (Hg [$"data"]). cbn. eauto.
    - destruct (IH I) as (er & ->). unfold inj_load at 1. destruct (f _) as [[|]|]; cbn [bind fst]; eauto. }
  destruct M as (er & ->). cbn. eauto.
Qed.
Lemma ov_resources : forall e, requested (rq_adds rooms') e ->
  exists d g, stored demo_gaz dir_e re_meta e d /\ gz_load demo_gaz re_tree d = Ok g.
Proof.
  intros e (v & [I|[I|[]]]); injection I as <- _; exists room_dir; eexists; (split; [exact room_stored|vm_compute; reflexivity]).
Qed.
