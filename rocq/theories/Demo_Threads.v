(** Two threads that share the engine of Demo_Home, for the examples.  Not part of the model
    of the repository. *)
From Coq Require Import String List NArith ZArith Bool Arith Lia FunctionalExtensionality.
From Verif Require Import Base F32 M_Types M_Engine M_Prob M_Filler M_Cache M_Res M_Fs M_Json M_Load M_Threads S_Threads
                          P_Base P_Cache P_Load P_Arc Demo P_Demo Demo_Prob Demo_Crf Demo_Load Demo_Home.
Import ListNotations.
Local Open Scope string_scope.
Local Open Scope list_scope.
Local Open Scope nat_scope.

Definition home_parts : Parts :=
  mkParts (x_lower demo_ext) (fun s kinds alts => demo_builtin s kinds false alts) (custom_extract demo_ext EN home_gaz)
          (fun _ => tg_tag demo_tagger) 1000 1000.
Definition home_call {A} (k : Engine -> outcome A) : method :=
  on_engine demo_ext demo_shape no_ngrams demo_math home_loader (fun _ _ => id_order) (fun _ _ => id_order) home dir_e k.

Lemma home_parts_at : parts_at demo_ext home_loader (fun _ _ => id_order) home dir_e home_parts.
Proof.
  split.
  - reflexivity.
  - intros m _. reflexivity.
  - intros m M.
    assert (E : em_custom m = $"custom").
    { assert (G : em_custom (get_ok (mkEM (mkDS [] [] []) [] [] []) (load_model home_loader (fun _ _ => id_order) home dir_e)) = $"custom")
        by (vm_compute; reflexivity).
      rewrite M in G. exact G. }
    rewrite E. exists (get_ok (mkCuM [] [] WithStems) (read_json home_loader home (pjoin (pjoin dir_e $"custom") $"metadata.json") d_custom_metadata)), EN, home_gaz.
    split; [apply get_ok_eq; vm_compute; reflexivity|]. split; [vm_compute; reflexivity|]. split; reflexivity.
  - intros file t H. cbn [home_loader ld_tagger] in H. destruct (home (resolve file)) as [[]|]; [|discriminate|discriminate].
    injection H as <-. reflexivity.
Qed.

(** The call, and the questions that it asks. *)
Definition ask_parse (s : string) (en : Engine) : outcome (option str * list (str * range)) :=
  let* r := parse_with_alternatives demo_ext id_order id_order en $s None None 0 0 in Ok (summary r).
Definition turn_features : features :=
  [[($"ngram_1", $"turn"); ($"is_first", $"1")];
   [($"ngram_1[-1]", $"turn"); ($"ngram_1", $"on")];
   [($"ngram_1[-1]", $"on"); ($"ngram_1", $"the")];
   [($"ngram_1[-1]", $"the"); ($"ngram_1", $"living"); ($"entity_match_room", $"B-")];
   [($"ngram_1[-1]", $"living"); ($"ngram_1", $"room"); ($"entity_match_room", $"I-")]].
Definition turn_tagger : path := components $"e/stats/filler_0/model.crfsuite".
Definition turn_questions : list query :=
  [QBuiltin $"Turn on the LIVING Room" (Some []) true 0;
   QCustom $"Turn on the LIVING Room" (Some [$"room"]) 0;
   QBuiltin $"Turn on the LIVING Room" (Some [$"snips/number"]) true 0;
   QCustom $"turn on the living room" None 0;
   QCustom $"Turn on the LIVING Room" None 0;
   QCustom $"turn on the living room" (Some [$"room"]) 0;
   QTag turn_tagger turn_features;
   QBuiltin $"Turn on the LIVING Room" (Some []) false 0].

(** An oracle that answers these questions itself, and asks another one for the rest. *)
Definition eq_dec_features (a b : features) : {a = b} + {a <> b}.
Proof. repeat decide equality. Defined.
Definition opt_dec (a b : option (list str)) : {a = b} + {a <> b}.
Proof. repeat decide equality. Defined.
Definition query_eq_dec (a b : query) : {a = b} + {a <> b}.
Proof. decide equality; try apply opt_dec; try apply eq_dec_features; try apply path_eq_dec; repeat decide equality. Defined.
Definition known (q : query) : bool := if in_dec query_eq_dec q turn_questions then true else false.
Definition guard (o : Oracle) : Oracle :=
  mkOracle (fun s k c n => if known (QBuiltin s k c n) then o_builtin (plain_parts home_parts) s k c n else o_builtin o s k c n)
           (fun s k n => if known (QCustom s k n) then o_custom (plain_parts home_parts) s k n else o_custom o s k n)
           (fun t fs => if known (QTag t fs) then o_tag (plain_parts home_parts) t fs else o_tag o t fs).
Lemma guard_same o : (forall q, In q turn_questions -> ask o q = ask (plain_parts home_parts) q) -> guard o = o.
Proof.
  intros H. destruct o as [b c t]. unfold guard. cbn [o_builtin o_custom o_tag].
  assert (E1 : (fun s k d n => if known (QBuiltin s k d n) then o_builtin (plain_parts home_parts) s k d n else b s k d n) = b).
  { repeat (apply functional_extensionality; intros ?). unfold known. destruct (in_dec _ _ _) as [I|]; [|reflexivity].
    specialize (H _ I). cbn [ask] in H. injection H as H. symmetry. exact H. }
  assert (E2 : (fun s k n => if known (QCustom s k n) then o_custom (plain_parts home_parts) s k n else c s k n) = c).
  { repeat (apply functional_extensionality; intros ?). unfold known. destruct (in_dec _ _ _) as [I|]; [|reflexivity].
    specialize (H _ I). cbn [ask] in H. injection H as H. symmetry. exact H. }
  assert (E3 : (fun u fs => if known (QTag u fs) then o_tag (plain_parts home_parts) u fs else t u fs) = t).
  { repeat (apply functional_extensionality; intros ?). unfold known. destruct (in_dec _ _ _) as [I|]; [|reflexivity].
    specialize (H _ I). cbn [ask] in H. injection H as H. symmetry. exact H. }
  rewrite E1, E2, E3. reflexivity.
Qed.
Definition turn_result : outcome (option str * list (str * range)) := Ok (Some $"lightOn", [($"LIVING Room", (12, 23))]).
Lemma turn_guarded o : home_call (ask_parse "Turn on the LIVING Room") (guard o) = turn_result.
Proof. vm_compute. reflexivity. Qed.
Lemma turn_settled : settled_by home_parts turn_questions (home_call (ask_parse "Turn on the LIVING Room")).
Proof.
  intros o H. rewrite <- (guard_same o H), <- (guard_same (plain_parts home_parts) (fun _ _ => eq_refl)), !turn_guarded. reflexivity.
Qed.
Definition turn_call : method := home_call (ask_parse "Turn on the LIVING Room").
Definition two_threads : list (list (Engine -> outcome (option str * list (str * range)))) :=
  [[ask_parse "Turn on the LIVING Room"]; [ask_parse "Turn on the LIVING Room"]].
Lemma turn_plain : turn_call (plain_parts home_parts) = turn_result.
Proof. unfold turn_call. rewrite <- (guard_same (plain_parts home_parts) (fun _ _ => eq_refl)). apply turn_guarded. Qed.
Lemma turn_no_panic q : In q turn_questions -> ~ panics home_parts q.
Proof.
  intros H. unfold turn_questions in H.
  repeat (destruct H as [<-|H]; [vm_compute; discriminate|]). destruct H.
Qed.

(** Both threads return; the second one finds the answers of the first one in the caches. *)
Lemma both_return : exists s, reach home_parts (map (map home_call) two_threads) s /\ (forall l, ts_poisoned s l = false) /\
  forall i, i < 2 -> nth_error (ts_workers s) i = Some (mkWorker Between [] [(turn_call, turn_result)]).
Proof.
  destruct (thread_completes home_parts (map (map home_call) two_threads) (tstart (map (map home_call) two_threads))
              0 turn_call turn_questions [] []) as (n & s1 & St1 & W1 & O1 & P1 & H1).
  - exact turn_no_panic.
  - apply reach_start.
  - reflexivity.
  - intros j l Hj. apply (iv_held _ _ _ (start_inv home_parts _)) in Hj. discriminate.
  - exact turn_settled.
  - reflexivity.
  - assert (R1 : reach home_parts (map (map home_call) two_threads) s1) by (eapply steps_reach; [exact St1|apply reach_start]).
    destruct (thread_completes home_parts (map (map home_call) two_threads) s1
              1 turn_call turn_questions [] []) as (m & s2 & St2 & W2 & O2 & P2 & _).
    + exact turn_no_panic.
    + exact R1.
    + exact P1.
    + exact H1.
    + exact turn_settled.
    + rewrite O1 by discriminate. reflexivity.
    + exists s2. split; [eapply steps_reach; eassumption|]. split; [exact P2|]. rewrite turn_plain in W1, W2.
      intros [|[|i]] Hi; [rewrite O2 by discriminate; exact W1|exact W2|lia].
Qed.

(** The first thread works under the lock of the cache that the second one needs. *)
Lemma one_waits : exists s, reach home_parts (map (map home_call) two_threads) s /\ holds s 0 LBuiltin /\ in_call s 1.
Proof.
  set (q := QBuiltin $"Turn on the LIVING Room" (Some []) true 0).
  pose proof (reach_start home_parts (map (map home_call) two_threads)) as R0. unfold tstart in R0.
  eapply reach_step in R0; [|eapply (Begin home_parts 0); reflexivity].
  eapply reach_step in R0; [|eapply (Begin home_parts 1); reflexivity].
  eapply reach_step in R0; [|eapply (Ask home_parts 0) with (q := q) (l := LBuiltin); reflexivity].
  eexists. split; [exact R0|]. split.
  - exists [], q, (work_of home_parts q), [turn_call], []. split; reflexivity.
  - exists [], [turn_call], []. reflexivity.
Qed.

(** A tagger that panics. *)
Definition bad_parts : Parts :=
  mkParts (x_lower demo_ext) (fun s kinds alts => demo_builtin s kinds false alts) (custom_extract demo_ext EN home_gaz)
          (fun _ _ => Panic) 1000 1000.
Lemma tagger_poisoned : exists s, reach bad_parts (map (map home_call) two_threads) s /\ ts_poisoned s (LTagger turn_tagger) = true.
Proof.
  set (q := QTag turn_tagger turn_features).
  pose proof (reach_start bad_parts (map (map home_call) two_threads)) as R0. unfold tstart in R0.
  eapply reach_step in R0; [|eapply (Begin bad_parts 0); reflexivity].
  eapply reach_step in R0; [|eapply (Ask bad_parts 0) with (q := q) (l := LTagger turn_tagger); reflexivity].
  eapply reach_step in R0; [|eapply (Work bad_parts 0); reflexivity].
  eapply reach_step in R0; [|eapply (Work bad_parts 0); reflexivity].
  eapply reach_step in R0; [|eapply (Leave bad_parts 0) with (q := q) (a := ATags Panic) (l := LTagger turn_tagger); reflexivity].
  eexists. split; [exact R0|]. reflexivity.
Qed.
(** The other thread, asking for tags afterwards, gets an error. *)
Lemma tagger_refuses : exists s s', reach bad_parts (map (map home_call) two_threads) s /\
  ts_poisoned s (LTagger turn_tagger) = true /\ tstep bad_parts 1 s s' /\
  received s' 1 = received s 1 ++ [(QTag turn_tagger turn_features, ATags (Err EOther))].
Proof.
  set (q := QTag turn_tagger turn_features).
  pose proof (reach_start bad_parts (map (map home_call) two_threads)) as R0. unfold tstart in R0.
  eapply reach_step in R0; [|eapply (Begin bad_parts 0); reflexivity].
  eapply reach_step in R0; [|eapply (Begin bad_parts 1); reflexivity].
  eapply reach_step in R0; [|eapply (Ask bad_parts 0) with (q := q) (l := LTagger turn_tagger); reflexivity].
  eapply reach_step in R0; [|eapply (Work bad_parts 0); reflexivity].
  eapply reach_step in R0; [|eapply (Work bad_parts 0); reflexivity].
  eapply reach_step in R0; [|eapply (Leave bad_parts 0) with (q := q) (a := ATags Panic) (l := LTagger turn_tagger); reflexivity].
  eexists. eexists. split; [exact R0|]. split; [reflexivity|]. split.
  - eapply (AskPoisoned bad_parts 1) with (q := q) (l := LTagger turn_tagger); reflexivity.
  - reflexivity.
Qed.
(** The first one makes it panic. *)
Lemma tagger_panics : exists s s', reach bad_parts (map (map home_call) two_threads) s /\ tstep bad_parts 0 s s' /\
  received s' 0 = received s 0 ++ [(QTag turn_tagger turn_features, ATags Panic)] /\ panicked (ATags Panic).
Proof.
  set (q := QTag turn_tagger turn_features).
  pose proof (reach_start bad_parts (map (map home_call) two_threads)) as R0. unfold tstart in R0.
  eapply reach_step in R0; [|eapply (Begin bad_parts 0); reflexivity].
  eapply reach_step in R0; [|eapply (Ask bad_parts 0) with (q := q) (l := LTagger turn_tagger); reflexivity].
  eapply reach_step in R0; [|eapply (Work bad_parts 0); reflexivity].
  eapply reach_step in R0; [|eapply (Work bad_parts 0); reflexivity].
  eexists. eexists. split; [exact R0|]. split.
  - eapply (Leave bad_parts 0) with (q := q) (a := ATags Panic) (l := LTagger turn_tagger); reflexivity.
  - split; [reflexivity|]. right. right. reflexivity.
Qed.
