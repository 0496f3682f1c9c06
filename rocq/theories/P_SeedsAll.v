(** Proofs for C82: two loadings of the same directory. *)
From Coq Require Import String List NArith ZArith Bool Arith Lia Permutation.
From Verif Require Import Base Sorting F32 M_Types M_Utils M_Engine M_Det M_Lookup M_Feat M_Prob M_Features M_Crf M_Filler M_Cache M_Res M_Fs M_Json M_Load
  S_Base S_Utils S_Engine S_Det S_Rank S_Rules S_Load S_Match S_Answer S_Made S_Seeds
  P_Base P_Engine P_Made P_Seeds P_SeedsRules P_SeedsEngine P_SeedsIntents.
Import ListNotations.
Local Open Scope list_scope.
Local Open Scope nat_scope.

Lemma both_eq_iff {A} (o o' : outcome A) : both eq o o' -> forall r, o = Ok r <-> o' = Ok r.
Proof.
  intros B r. destruct o, o'; cbn [both] in B; try contradiction; try (split; intros K; discriminate K). subst. reflexivity.
Qed.

Section All.
  Context (x : Ext) (shape : str -> str) (ngrams : list str -> nat -> list str) (mx : Math) (L : Loader)
          (fo fo' : path -> orders) (uo uo' : path -> nat -> HashOrder) (f : fs) (p : path).
  Hypothesis once : pairs_once L f.

  Lemma both_load : (exists en, from_path x shape ngrams mx L fo uo f p = Ok en) <->
                    (exists en', from_path x shape ngrams mx L fo' uo' f p = Ok en').
  Proof.
    pose proof (both_from_path x shape ngrams mx L fo fo' uo uo' f once p) as B.
    destruct (from_path x shape ngrams mx L fo uo f p) as [en| |], (from_path x shape ngrams mx L fo' uo' f p) as [en'| |]; cbn [both] in B;
      try contradiction; split; intros [en0 K]; try discriminate K; eauto.
  Qed.

  Context (m : EngineModel) (en en' : Engine) (input : str).
  Hypothesis Sets : filters_are_sets L.
  Hypothesis Hen : from_path x shape ngrams mx L fo uo f p = Ok en.
  Hypothesis Hen' : from_path x shape ngrams mx L fo' uo' f p = Ok en'.
  Hypothesis Hm : file_says L fo f p $"nlu_engine.json" d_engine m.
  Hypothesis X : externals_ok x L (en_resources en) input.
  Hypothesis Z : sizes_ok x L fo f p m (en_resources en) input.

  Lemma loaded_twins : twins x mx L fo uo uo' f p m en en'.
  Proof.
    pose proof (both_from_path x shape ngrams mx L fo fo' uo uo' f once p) as B. rewrite Hen, Hen' in B. cbn [both] in B.
    destruct B as (m0 & T). pose proof T as (M & _). rewrite (says_fun _ _ _ _ _ _ _ _ Hm M). exact T.
  Qed.

  Lemma two_parse o1 o2 o1' o2' w b n r :
    (forall wl, get_intents_whitelist o1 en w b = Ok wl -> hardly_ambiguous x L fo f p m (en_resources en) input wl) ->
    parse_with_alternatives x o1 o2 en input w b 0 n = Ok r <-> parse_with_alternatives x o1' o2' en' input w b 0 n = Ok r.
  Proof.
    intros A. apply both_eq_iff. exact (parse_same x shape ngrams mx L fo uo uo' f Sets p m en en' input Hen loaded_twins X Z _ _ _ _ _ _ _ A).
  Qed.
  Lemma two_slots i n r :
    get_slots_with_alternatives x en input i n = Ok r <-> get_slots_with_alternatives x en' input i n = Ok r.
  Proof. apply both_eq_iff. apply (slots_same x shape ngrams mx L fo uo uo' f Sets p m en en' input Hen loaded_twins X Z). Qed.
  Lemma two_extract i s n r :
    extract_slot_with_alternatives x en input i s n = Ok r <-> extract_slot_with_alternatives x en' input i s n = Ok r.
  Proof. apply both_eq_iff. apply (extract_same x mx L fo uo uo' f p m en en' input loaded_twins). Qed.
  Lemma two_intents o o' : hardly_ambiguous x L fo f p m (en_resources en) input None ->
    ((exists l, get_intents o en input = Ok l) <-> (exists l', get_intents o' en' input = Ok l')) /\
    forall l l', get_intents o en input = Ok l -> get_intents o' en' input = Ok l' -> Permutation l l'.
  Proof.
    intros A. pose proof (intents_same x shape ngrams mx L fo uo uo' f Sets p m en en' input Hen loaded_twins X Z A o o') as B.
    destruct (get_intents o en input) as [l| |], (get_intents o' en' input) as [l'| |]; cbn [both] in B; try contradiction;
      (split; [split; intros [ls K]; try discriminate K; eauto|]; intros l1 l2 K K'; try discriminate K; try discriminate K').
    injection K as <-. injection K' as <-. exact B.
  Qed.
  Lemma two_alternatives o1 o2 o1' o2' w b k n r : no_ties o2 en input -> hardly_ambiguous x L fo f p m (en_resources en) input None ->
    (forall wl, get_intents_whitelist o1 en w b = Ok wl -> hardly_ambiguous x L fo f p m (en_resources en) input wl) ->
    parse_with_alternatives x o1 o2 en input w b k n = Ok r <-> parse_with_alternatives x o1' o2' en' input w b k n = Ok r.
  Proof.
    intros NT A0 A. apply both_eq_iff.
    unfold parse_with_alternatives. pose proof loaded_twins as (_ & _ & (_ & _ & D) & _).
    eapply both_bind; [apply (whitelist_same o1 o1'); exact D|]. intros wl wl' W _ Ff.
    eapply both_bind; [apply (loop_same x shape ngrams mx L fo uo uo' f Sets p m en en' input Hen loaded_twins X Z); auto|].
    intros r0 r0' _ _ <-. destruct (k =? 0); [reflexivity|].
    eapply both_bind with (R := eq).
    - pose proof (intents_same x shape ngrams mx L fo uo uo' f Sets p m en en' input Hen loaded_twins X Z A0 o2 o2') as B.
      destruct (get_intents o2 en input) as [l| |] eqn:E, (get_intents o2' en' input) as [l'| |] eqn:E'; cbn [both] in *; auto.
      apply sorted_no_ties; auto.
      + intros a c Ha Hc. apply (NT l); auto.
      + apply (get_intents_sorted _ _ _ _ E).
      + apply (get_intents_sorted _ _ _ _ E').
    - intros l l' _ _ <-.
      assert (Ef : filter (passes_filter wl) l = filter (passes_filter wl') l).
      { apply filter_ext. intros a. unfold passes_filter. destruct (ir_name a); auto. destruct wl, wl'; simpl in Ff; try contradiction; auto. }
      rewrite Ef. eapply both_bind with (R := eq); [|intros al al' _ _ <-; reflexivity].
      eapply both_impl; [|apply both_mapM_same with (R := eq)].
      + intros a c H. apply Forall2_eq, H.
      + intros a _. unfold alternative_of. eapply both_bind with (R := eq); [|intros sl sl' _ _ <-; reflexivity].
        destruct (ir_name a); [|reflexivity].
        apply (slots_same x shape ngrams mx L fo uo uo' f Sets p m en en' input Hen loaded_twins X Z).
  Qed.
End All.
