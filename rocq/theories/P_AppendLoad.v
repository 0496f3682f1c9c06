(** Proofs for C97: parsers added to the main document of an engine. *)
From Coq Require Import String List NArith ZArith Bool Arith Lia.
From Verif Require Import Base F32 M_Types M_Engine M_Det M_Lookup M_Feat M_Prob M_Features M_Filler
  M_Res M_Fs M_Json M_Load S_Base S_Engine S_Prob S_Load S_Made S_Append P_Base P_Engine P_Prob P_Load P_Made.
Import ListNotations.
Local Open Scope nat_scope.

Section Grow.
  Context (x : Ext) (shape : str -> str) (ngrams : list str -> nat -> list str) (mx : Math) (L : Loader)
          (fo : path -> orders) (uo : path -> nat -> HashOrder) (f f' : fs) (p : path).
  Hypothesis SB : same_but_main p f f'.
  Hypothesis LL : loaders_local L.
  Hypothesis PL : forall names j s, json_at L f (p ++ map CName names) j -> text_in s j -> plain s.
  Hypothesis PLang : forall l, folder (ld_lang_name L l).

  Lemma folder_below s : folder s -> under p (pjoin p s) /\ same_below (resolve (pjoin p s)) f f'.
  Proof.
    intros (P & n & rest & E & N). split; [apply under_join; [apply under_refl|exact P]|].
    destruct (plain_names s P) as (c & Ec). destruct P as [A _]. rewrite E in Ec. destruct c as [|n' c]; [discriminate|]. injection Ec as <- Ec.
    unfold pjoin. rewrite A, E. subst rest. change (CName n :: map CName c) with (map CName (n :: c)). rewrite resolve_under.
    intros q. rewrite <- app_assoc. apply SB. exact N.
  Qed.
  Lemma plain_below q : under p q -> forall names j s, json_at L f (q ++ map CName names) j -> text_in s j -> plain s.
  Proof. intros (c & ->) names j s J. rewrite <- app_assoc, <- map_app in J. eapply PL; exact J. Qed.
  Lemma resources_folder : folder $"resources".
  Proof. split; [split; [reflexivity|vm_compute; intuition discriminate]|]. exists $"resources", []. split; [reflexivity|discriminate]. Qed.

  Ltac const_plain := split; [reflexivity|vm_compute; intuition discriminate].

  Lemma shared_grow dir b c : under (pjoin p $"resources") dir -> dir <> pjoin p $"resources" -> folder b -> folder c ->
    load_shared_resources x L uo f dir (pjoin p b) (pjoin p c) = load_shared_resources x L uo f' dir (pjoin p b) (pjoin p c).
  Proof.
    intros U ND Fb Fc. destruct (folder_below _ resources_folder) as [Ur Sr]. pose proof (plain_below _ Ur) as Pr.
    destruct (folder_below _ Fb) as [Ub Sb]. destruct (folder_below _ Fc) as [Uc Sc].
    assert (Hb : load_builtin x L f (pjoin p b) = load_builtin x L f' (pjoin p b)) by exact (load_builtin_local x L f f' _ Sb LL _ (under_refl _)).
    assert (Hc : load_custom x L f (pjoin p c) = load_custom x L f' (pjoin p c))
      by exact (load_custom_local x L fo uo f f' _ Sc LL (plain_below _ Uc) _ (under_refl _)).
    unfold load_shared_resources. apply bind_cong; [apply (read_json_local L f f' _ Sr); apply under_join; [exact U|const_plain]|].
    intros m M.
    assert (T : forall s, (forall j, d_resources j = Ok m -> text_in s j) -> plain s).
    { intros s. apply (text_plain L f _ Pr (pjoin dir $"metadata.json") d_resources m s); [apply under_join; [exact U|const_plain]|exact M]. }
    apply bind_cong.
    { unfold load_stemmer. destruct (rm_stems m) as [n|] eqn:E; auto.
      apply bind_cong; auto. apply (read_file_local f f' _ Sr). apply under_file; auto.
      - apply T. intros j D. apply d_resources_text in D as (_ & _ & D & _). auto.
      - const_plain.
      - discriminate. }
    intros st _. apply bind_cong.
    { apply (load_named_local f f' _ Sr); auto; [const_plain|discriminate|].
      intros l s E Hs. apply T. intros j D. apply d_resources_text in D as (D & _). eauto. }
    intros gs _. apply bind_cong.
    { apply (load_named_local f f' _ Sr); auto; [const_plain|discriminate|].
      intros l s E Hs. apply T. intros j D. apply d_resources_text in D as (_ & D & _). eauto. }
    intros cs _. apply bind_cong.
    { unfold load_stop_words. destruct (rm_stop_words m) as [n|] eqn:E; auto.
      apply bind_cong; auto. apply (read_file_local f f' _ Sr).
      assert (plain n) as Pn by (apply T; intros j D; apply d_resources_text in D as (_ & _ & _ & D); auto).
      clear Ur Sr Pr M. remember (pjoin p $"resources") as rd eqn:Erd. clear Erd.
      destruct U as (cc & ->). destruct (plain_names n Pn) as (c' & En). destruct Pn as [A _].
      unfold pjoin. rewrite A, En, <- app_assoc, <- map_app, with_extension_app.
      - destruct (with_extension_names (cc ++ c') $"txt") as (c3 & ->). exists c3. reflexivity.
      - destruct cc; [|discriminate]. exfalso. apply ND. apply app_nil_r. }
    intros sw _. rewrite Hb, Hc. reflexivity.
  Qed.

  Context (m : EngineModel) (names : list str).
  Hypothesis M : file_says L fo f p $"nlu_engine.json" d_engine m.
  Hypothesis M' : file_says L fo f' p $"nlu_engine.json" d_engine (with_names m names).
  Hypothesis Fb : folder (em_builtin m).
  Hypothesis Fc : folder (em_custom m).
  Hypothesis Fp : forall n, In n (em_parsers m) -> folder n.

  Lemma resources_grow : resources_of x L uo f p m = resources_of x L uo f' p (with_names m names).
  Proof.
    unfold resources_of. cbn [em_dataset em_builtin em_custom with_names]. apply bind_cong; auto. intros l _. pose proof (PLang l) as H.
    apply shared_grow; auto.
    - apply under_join; [apply under_refl|exact (proj1 H)].
    - destruct H as ((A & _) & n & rest & E & _). unfold pjoin at 1. rewrite A, E. intros Q. apply (f_equal (@length _)) in Q.
      rewrite app_length in Q. cbn [length] in Q. lia.
  Qed.
  Lemma parsers_grow res : forall n, In n (em_parsers m) ->
    (let* u := read_json L f (pjoin (pjoin p n) $"metadata.json") d_unit in build_intent_parser x shape ngrams mx L fo uo f (pjoin p n) u res) =
    (let* u := read_json L f' (pjoin (pjoin p n) $"metadata.json") d_unit in build_intent_parser x shape ngrams mx L fo uo f' (pjoin p n) u res).
  Proof.
    intros n Hn. destruct (folder_below n (Fp n Hn)) as [U S]. apply bind_cong.
    - apply (read_json_local L f f' _ S). apply under_join; [apply under_refl|const_plain].
    - intros u _. apply (parser_local x shape ngrams mx L fo uo f f' _ S LL (plain_below _ U)). apply under_refl.
  Qed.
  Lemma mapM_app_ok {A B} (g : A -> outcome B) l l' r : mapM g (l ++ l') = Ok r ->
    exists a b, mapM g l = Ok a /\ mapM g l' = Ok b /\ r = a ++ b.
  Proof.
    revert r. induction l as [|y l IH]; intros r H; cbn [app mapM] in *; [exists [], r; auto|].
    bind_inv H. bind_inv H. injection H as <-. destruct (IH _ E0) as (u & v & -> & Hv & ->). exists (a :: u), v. rewrite E. cbn [bind]. auto.
  Qed.
  Lemma mapM_len {A B} (g : A -> outcome B) l r : mapM g l = Ok r -> length r = length l.
  Proof.
    revert r. induction l as [|y l IH]; intros r H; cbn [mapM] in *; [injection H as <-; reflexivity|].
    bind_inv H. bind_inv H. injection H as <-. cbn [length]. f_equal. exact (IH _ E0).
  Qed.

  Lemma engine_grows en en' : from_path x shape ngrams mx L fo uo f p = Ok en -> from_path x shape ngrams mx L fo uo f' p = Ok en' ->
    exists more, length more = length names /\ en' = followed_by en more.
  Proof.
    unfold from_path. intros H H'.
    assert (Lm : forall g a m0, load_model L fo g p = Ok a -> file_says L fo g p $"nlu_engine.json" d_engine m0 -> a = m0).
    { intros g a m0 E S. unfold load_model in E. cbv zeta in E. bind_inv E. apply (says_iff L fo g) in S. rewrite S in E. injection E as <-. reflexivity. }
    bind_inv H. bind_inv H'. rewrite (Lm _ _ _ E M) in *. rewrite (Lm _ _ _ E0 M') in *.
    bind_inv H. bind_inv H'. rewrite <- resources_grow, E1 in E2. injection E2 as <-.
    bind_inv H. bind_inv H'. injection H as <-. injection H' as <-. unfold load_intent_parsers in *. cbv zeta in *. cbn [em_parsers with_names] in *.
    apply mapM_app_ok in E3 as (u & v & Hu & Hv & ->). rewrite (mapM_ext _ _ _ (parsers_grow _)) in E2. rewrite Hu in E2. injection E2 as <-.
    exists v. split; [exact (mapM_len _ _ _ Hv)|reflexivity].
  Qed.
End Grow.
