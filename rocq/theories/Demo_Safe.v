(** The conditions under which the calls of a loaded engine do not panic hold for the engine
    of the examples. *)
From Coq Require Import String List NArith ZArith Bool Arith Lia.
From Verif Require Import Base F32 M_Types M_Engine M_Det M_Lookup M_Feat M_Prob M_Crf M_Features M_Filler
  M_Cache M_Res M_Fs M_Json M_Load S_Base S_Utils S_Det S_Rules S_Match S_Feat S_Prob S_Crf S_Filler S_Load S_Answer S_Safe
  P_Base P_Engine P_Rules P_Match P_MatchDet P_Feat P_Load P_Names P_Demo P_Answer P_Norm
  Demo Demo_Rules Demo_Prob Demo_Crf Demo_Load Demo_Home.
Import ListNotations.
Local Open Scope nat_scope.

(** Checks of the files. *)
Definition bounded (v : f32) : bool := fle (fneg big) v && fle v big.
Lemma bounded_within l : forallb bounded l = true -> forall v, In v l -> within big v.
Proof.
  intros H v Hv. rewrite forallb_forall in H. apply H in Hv. apply andb_prop in Hv as [A B]. split; assumption.
Qed.

Definition nonempty {A} (l : list A) : bool := match l with [] => false | _ => true end.
Definition check_tfidf (m : TfidfModel) : bool :=
  nonempty (tm_vocab m) && forallb (fun wi => snd wi <? length (tm_idf m)) (tm_vocab m) && forallb bounded (tm_idf m).
Lemma tfidf_checked m : check_tfidf m = true -> sound_tfidf m.
Proof.
  intros H. apply andb_prop in H as [H H3]. apply andb_prop in H as [H1 H2]. split; [|split].
  - intros E. rewrite E in H1. discriminate.
  - intros w i Hi. rewrite forallb_forall in H2. apply H2 in Hi. apply Nat.ltb_lt in Hi. exact Hi.
  - exact (bounded_within _ H3).
Qed.

Definition distinct_nats (l : list nat) : bool := length (unique Nat.eqb l) =? length l.
Definition check_id (n : nat) (i : Z) : bool := ((0 <=? i) && (i <? Z.of_nat n))%Z.
Definition check_lookup (m : LookupModel) : bool :=
  forallb (fun e => check_id (length (lm_intents_names m)) (fst (snd e)) &&
                    forallb (check_id (length (lm_slots_names m))) (snd (snd e)) &&
                    (Z.of_nat (length (snd (snd e))) <? 2 ^ 64)%Z) (lm_map m).
Lemma id_checked {A} (l : list A) i : check_id (length l) i = true -> valid_id l i.
Proof.
  unfold check_id. intros H. apply andb_prop in H as [H1 H2]. apply Z.leb_le in H1. apply Z.ltb_lt in H2. split; assumption.
Qed.
Lemma lookup_checked m : check_lookup m = true -> sound_lookup m.
Proof.
  intros H h i ss Hin. unfold check_lookup in H. rewrite forallb_forall in H. apply H in Hin. cbn [fst snd] in Hin.
  apply andb_prop in Hin as [Hin H3]. apply andb_prop in Hin as [H1 H2]. split; [apply id_checked; exact H1|]. split.
  - intros s Hs. apply id_checked. rewrite forallb_forall in H2. exact (H2 s Hs).
  - apply Z.ltb_lt. exact H3.
Qed.

Definition check_pairs (m : CoocModel) : bool :=
  match cm_pairs m with [] => true | [(0, _)] => true | _ => false end.
Lemma pairs_checked m : check_pairs m = true -> good_pairs (cm_pairs m).
Proof.
  unfold check_pairs. destruct (cm_pairs m) as [|[[|k] p] [|q r]]; try discriminate; intros _; split; try split; cbn.
  - constructor.
  - constructor.
  - intros k [].
  - constructor; [intros []|constructor].
  - constructor; [intros []|constructor].
  - intros k [<-|[]]. lia.
Qed.

Definition check_filler (m : SlotFillerModel) : bool :=
  forallb (fun f => match sget $"n" (ff_args f) with Some (JNum z) => (z <? 2 ^ 63)%Z | _ => true end) (sm_factories m).
Lemma filler_checked m : check_filler m = true -> sound_filler m.
Proof.
  intros H f z Hf Hz. unfold check_filler in H. rewrite forallb_forall in H. apply H in Hf. rewrite Hz in Hf.
  apply Z.ltb_lt. exact Hf.
Qed.

Definition check_classifier (m : ClassifierModel) : bool :=
  match clm_intercept m, clm_coeffs m with
  | Some i, Some c => forallb bounded i && forallb (fun row => (Z.of_nat (length row) <? 2 ^ 24)%Z && forallb bounded row) c
  | _, _ => true
  end.
Lemma classifier_checked m : check_classifier m = true -> sound_classifier m.
Proof.
  intros H i c Ei Ec. unfold check_classifier in H. rewrite Ei, Ec in H. apply andb_prop in H as [H1 H2].
  split; [exact (bounded_within _ H1)|]. intros row Hr. rewrite forallb_forall in H2. apply H2 in Hr.
  apply andb_prop in Hr as [R1 R2]. split; [apply Z.ltb_lt; exact R1|exact (bounded_within _ R2)].
Qed.

Definition check_group (m : DetModel) (i n : str) : bool :=
  match sget (before_underscore n) (dm_groups m), sget i (dm_slots m) with
  | Some slot, Some decls => match sget slot decls with Some _ => true | None => false end
  | _, _ => false
  end.
Definition check_det (m : DetModel) : bool :=
  forallb (fun ip => forallb (fun p => match sget p demo_patterns with
    | Some w => forallb (fun c : option str * str => match fst c with Some n => check_group m (fst ip) n | None => true end) w
    | None => true end) (snd ip)) (dm_patterns m).
Lemma det_checked m : check_det m = true -> groups_declared demo_compile m.
Proof.
  intros H i ps p r s caps n rg Hi Hp Hc Hr Hn. unfold check_det in H. rewrite forallb_forall in H. apply H in Hi.
  cbn [fst snd] in Hi. rewrite forallb_forall in Hi. apply Hi in Hp. unfold demo_compile in Hc.
  destruct (sget p demo_patterns) as [w|]; [|discriminate]. injection Hc as <-. unfold demo_regex in Hr.
  destruct (list_eqb _ _ _); [|discriminate]. injection Hr as <-. unfold named_captures in Hn. cbn [tl] in Hn.
  apply in_flat_map in Hn as ([[n'|] [rg'|]] & Hc & Hn); try destruct Hn as [Hn|[]]; try contradiction. injection Hn as -> ->.
  apply in_map_iff in Hc as ([c t] & Ec & Hc). cbn [fst snd] in Ec. injection Ec as Ec _.
  apply in_combine_l in Hc. rewrite forallb_forall in Hp. apply Hp in Hc. rewrite Ec in Hc. unfold check_group in Hc.
  destruct (sget (before_underscore n) (dm_groups m)) as [slot|] eqn:E1; [|discriminate].
  destruct (sget i (dm_slots m)) as [decls|] eqn:E2; [|discriminate].
  destruct (sget slot decls) as [e|] eqn:E3; [|discriminate]. exists slot, e, (before_underscore n), decls.
  split; [apply base_name_before|]. auto.
Qed.

Definition holds {A} (check : A -> bool) (o : outcome A) : bool := match o with Ok a => check a | _ => true end.
Definition check_doc (cj : str * json) : bool :=
  holds check_tfidf (d_tfidf home_f32 (fun _ => id_order) (snd cj)) &&
  holds check_pairs (d_cooccurrence (fun _ => id_order) (snd cj)) &&
  holds check_lookup (d_lookup (fun _ => id_order) (snd cj)) &&
  holds check_det (d_deterministic (fun _ => id_order) (snd cj)) &&
  holds check_filler (d_filler (fun _ => id_order) (snd cj)) &&
  holds check_classifier (d_classifier home_f32 (snd cj)).
Lemma home_checked : forallb check_doc home_documents = true.
Proof. vm_compute. reflexivity. Qed.

Lemma home_sound f : sound_files home_loader (fun _ _ => id_order) f.
Proof.
  intros p j (c & _ & J). apply home_doc in J. pose proof home_checked as H. rewrite forallb_forall in H. apply H in J.
  unfold check_doc in J. cbn [snd] in J. repeat (apply andb_prop in J as [J ?]). change (ld_f32 home_loader) with home_f32.
  split; [|split; [|split; [|split; [|split]]]]; intros m D.
  - rewrite D in J. exact (tfidf_checked m J).
  - rewrite D in H4. exact (pairs_checked m H4).
  - rewrite D in H3. exact (lookup_checked m H3).
  - rewrite D in H2. exact (det_checked m H2).
  - rewrite D in H1. exact (filler_checked m H1).
  - rewrite D in H0. exact (classifier_checked m H0).
Qed.

Lemma demo_groups_fit : groups_fit demo_compile.
Proof.
  intros p r s caps Hc Hr. unfold demo_compile in Hc. destruct (sget p demo_patterns) as [w|] eqn:E; [|discriminate].
  injection Hc as <-. unfold demo_regex in Hr. destruct (list_eqb _ _ _); [|discriminate]. injection Hr as <-.
  assert (B : length w <= 5).
  { pose proof (sget_In _ _ _ E) as Hin.
    assert (F : forallb (fun pw : str * demo_pattern => length (snd pw) <=? 5) demo_patterns = true) by reflexivity.
    rewrite forallb_forall in F. apply F in Hin. apply Nat.leb_le in Hin. exact Hin. }
  cbn [length]. rewrite map_length, combine_length. lia.
Qed.

Lemma home_externals f : externals_behave demo_ext demo_math home_loader f.
Proof.
  split; [exact demo_tokenizer_ok|]. split; [exact demo_exp_ok|]. split; [exact (plain_cell_ok _)|].
  split; [exact demo_groups_fit|]. split; [|split].
  - intros p b H s kinds n. cbn [ld_builtin home_loader] in H. injection H as <-. unfold demo_builtin. discriminate.
  - intros p g H s kinds n. cbn [ld_gazetteer home_loader] in H.
    assert (G : g = home_gaz) by (injection H as <-; reflexivity). subst g. clear H. split.
    + unfold home_gaz. discriminate.
    + intros es e He Hin. exact (proj1 (home_gaz_in _ _ _ _ _ He Hin)).
  - intros p t H. cbn [ld_tagger home_loader] in H.
    destruct (f (resolve p)) as [[]|]; try discriminate. injection H as <-. destruct demo_tagger_ok as (A & _ & B). auto.
Qed.

Definition spoken : str := $"Turn on the  LIVING   Room now".
Lemma home_texts : texts_below_limit demo_ext (en_resources home_engine) spoken.
Proof.
  split; [vm_compute; reflexivity|]. intros s [(r & ->)|(l & stemmer & words & Hst & Hw & ->)].
  - cbn [x_lower demo_ext]. rewrite map_length. unfold substring. rewrite firstn_length, skipn_length.
    assert (B : length spoken = 30) by (vm_compute; reflexivity). lia.
  - assert (N : stemmer = None) by (destruct Hst as [->| ->]; reflexivity). subst stemmer. clear Hst.
    destruct Hw as [->| ->]; vm_compute; reflexivity.
Qed.

Lemma safe_case :
  externals_behave demo_ext demo_math home_loader home /\
  sound_files home_loader (fun _ _ => id_order) home /\
  load_home = Ok home_engine /\
  texts_below_limit demo_ext (en_resources home_engine) spoken /\
  parse_with_alternatives demo_ext id_order id_order home_engine spoken None None 2 0 =
    Ok (home_parse "Turn on the  LIVING   Room now" 2).
Proof.
  split; [exact (home_externals home)|]. split; [exact (home_sound home)|]. split; [exact home_eq|].
  split; [exact home_texts|exact home_parse_ok].
Qed.
