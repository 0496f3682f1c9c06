(** Proofs for C75. *)
From Coq Require Import String List NArith ZArith Bool Arith Lia.
From Verif Require Import Base M_Types M_Crf M_Feat M_Features M_Filler S_Base S_Utils S_Det S_Crf S_Filler S_Meaning
  P_Base P_Crf P_Features P_Filler.
Import ListNotations.
Local Open Scope nat_scope.

Lemma index_nth {A} (l : list A) i a : index l i = Ok a -> nth_error l i = Some a.
Proof. unfold index. destruct (nth_error l i); [intros H; inv H; reflexivity|discriminate]. Qed.

Lemma next_firstn toks i n : i + n <= length toks -> next_tokens toks i n (firstn n (skipn i toks)).
Proof.
  intros H. split; [rewrite firstn_length, skipn_length; lia|].
  exists (firstn i toks), (skipn n (skipn i toks)). split; [|rewrite firstn_length; lia].
  rewrite firstn_skipn. rewrite firstn_skipn. reflexivity.
Qed.

Lemma digit_meaning toks i v : ft_compute is_digit_feature toks i = Ok v -> says_digit toks i v.
Proof.
  cbn [ft_compute is_digit_feature]. intros H t Ht. bind_inv H. apply index_nth in E. rewrite Ht in E. inv E. inv H.
  destruct (forallb is_ascii_digit (tk_value a)) eqn:F.
  - left. split; [|reflexivity]. rewrite forallb_forall in F. intros c Hc. specialize (F c Hc).
    unfold is_ascii_digit in F. apply andb_true_iff in F. destruct F as [F1 F2].
    apply N.leb_le in F1. apply N.leb_le in F2. split; assumption.
  - right. split; [|reflexivity]. intros Hall. assert (forallb is_ascii_digit (tk_value a) = true); [|congruence].
    apply forallb_forall. intros c Hc. destruct (Hall c Hc). unfold is_ascii_digit. apply andb_true_iff.
    split; apply N.leb_le; assumption.
Qed.

Lemma length_meaning toks i v : ft_compute length_feature toks i = Ok v -> says_length toks i v.
Proof.
  cbn [ft_compute length_feature]. intros H t Ht. bind_inv H. apply index_nth in E. rewrite Ht in E. inv E. inv H. reflexivity.
Qed.

Lemma first_meaning toks i v : ft_compute is_first_feature toks i = Ok v -> says_first toks i v.
Proof.
  cbn [ft_compute is_first_feature]. intros H. inv H. destruct (Nat.eqb_spec i 0); [left|right]; split; auto.
Qed.

Lemma last_meaning toks i v : ft_compute is_last_feature toks i = Ok v -> says_last toks i v.
Proof.
  cbn [ft_compute is_last_feature]. intros H. bind_inv H. unfold usub in E. destruct (Nat.leb_spec 1 (length toks)); [|discriminate].
  inv E. inv H. destruct (Nat.eqb_spec i (length toks - 1)); [left|right]; (split; [lia|reflexivity]).
Qed.

Lemma ngram_meaning x n gaz st toks i v : i < length toks ->
  ft_compute (ngram_feature x n gaz st) toks i = Ok v -> says_ngram x n gaz st toks i v.
Proof.
  intros Hi H Hn. destruct (ngram_spec x n gaz st toks i Hi Hn) as [S1 S2].
  destruct (Nat.le_gt_cases (i + n) (length toks)) as [L|L].
  - rewrite (S1 L) in H. inv H. split; [split; [discriminate|lia]|]. intros s Hs. inv Hs.
    exists (firstn n (skipn i toks)), (map (ngram_word x st gaz) (firstn n (skipn i toks))).
    split; [apply next_firstn, L|]. split; [|reflexivity].
    generalize (firstn n (skipn i toks)) as l. induction l as [|t l IH]; [constructor|]. constructor; [|exact IH].
    unfold ngram_word, common_as. change (stem_normalize x st (tk_value t)) with (seen_as x st (tk_value t)).
    destruct gaz as [g|].
    + destruct (g (seen_as x st (tk_value t))) eqn:G; [left|right].
      * split; [intros g' E; inv E; exact G|reflexivity].
      * split; [exists g; auto|reflexivity].
    + left. split; [intros g E; discriminate|reflexivity].
  - rewrite (S2 L) in H. inv H. split; [tauto|discriminate].
Qed.

Lemma shape_meaning shape n toks i v : i < length toks ->
  ft_compute (shape_ngram_feature shape n) toks i = Ok v -> says_shape_ngram shape n toks i v.
Proof.
  intros Hi H Hn. destruct (shape_ngram_spec shape n toks i Hi Hn) as [S1 S2].
  destruct (Nat.eq_dec n 0) as [Z|Z]; [|destruct (Nat.le_gt_cases (i + n) (length toks)) as [L|L]].
  - rewrite (S2 (or_introl Z)) in H. inv H. split; [tauto|discriminate].
  - rewrite (S1 ltac:(lia) L) in H. inv H. split; [split; [discriminate|lia]|]. intros s Hs. inv Hs.
    eexists. split; [apply next_firstn, L|reflexivity].
  - rewrite (S2 (or_intror L)) in H. inv H. split; [tauto|discriminate].
Qed.

Lemma prefix_meaning x k toks i v : ft_compute (prefix_feature x k) toks i = Ok v -> says_prefix x k toks i v.
Proof.
  intros H t Ht. destruct (prefix_spec x k toks i t Ht) as (v' & E & H1 & H2). rewrite H in E. inv E.
  split; [exact H2|]. intros p Hp. apply H1, Hp.
Qed.
Lemma suffix_meaning x k toks i v : ft_compute (suffix_feature x k) toks i = Ok v -> says_suffix x k toks i v.
Proof.
  intros H t Ht. destruct (suffix_spec x k toks i t Ht) as (v' & E & H1 & H2). rewrite H in E. inv E.
  split; [exact H2|]. intros p Hp. apply H1, Hp.
Qed.

Lemma cluster_meaning x n c toks i v :
  ft_compute (word_cluster_feature x n c) toks i = Ok v -> says_cluster x c toks i v.
Proof.
  cbn [ft_compute word_cluster_feature]. intros H t Ht. bind_inv H. apply index_nth in E. rewrite Ht in E. inv E. inv H. reflexivity.
Qed.

Lemma entity_meaning x e sc st parser toks i v : i < length toks ->
  ft_compute (entity_match_feature x e sc st parser) toks i = Ok v -> says_entity x e sc st parser toks i v.
Proof.
  intros Hi H. assert (Hne : toks <> []) by (intros ->; cbn in Hi; lia).
  pose proof (transform_rebuild x st toks Hne) as T. cbv zeta in T.
  pose proof (entity_match_spec x e sc st parser toks i v) as M. cbv zeta in M.
  set (moved := transform_tokens x toks st) in *. destruct T as (T1 & T2 & T3).
  change (fun t => stem_normalize x st (tk_value t)) with (fun t => seen_as x st (tk_value t)) in *.
  assert (exists es, parser (join [space] (map (fun t => seen_as x st (tk_value t)) toks)) (Some [e]) 0 = Ok es) as [es Ees].
  { cbn [ft_compute entity_match_feature] in H. fold moved in H. rewrite T1 in H. cbn [bind] in H. bind_inv H. eauto. }
  exists moved, es. rewrite T2. split; [reflexivity|]. split; [intros t Ht; apply T3, Ht|]. split; [exact Ees|].
  intros N1 N2. exact (M _ _ T1 Ees N1 N2 H).
Qed.

Lemma builtin_meaning k sc parser toks i v : i < length toks ->
  ft_compute (builtin_match_feature k sc parser) toks i = Ok v -> says_builtin k sc parser toks i v.
Proof.
  intros Hi H Hl. assert (Hne : toks <> []) by (intros ->; cbn in Hi; lia).
  destruct (rebuild_spec toks Hl Hne) as (s & Es & Hs).
  assert (exists es, parser s (Some [k]) true 0 = Ok es) as [es Ees].
  { cbn [ft_compute builtin_match_feature] in H. rewrite Es in H. cbn [bind] in H. bind_inv H. eauto. }
  exists s, es. split; [exact Hs|]. split; [exact Ees|]. intros N1 N2. eapply builtin_match_spec; eassumption.
Qed.

(** ** Arguments *)
Lemma u64_iff a k z : parse_as_u64 a k = Ok z <-> sget k a = Some (JNum z) /\ (0 <= z < 2 ^ 64)%Z.
Proof.
  unfold parse_as_u64. destruct (sget k a) as [j|]; cbn [ok_or bind]; [|split; [discriminate|intros [H _]; discriminate]].
  destruct j as [| |z'| | | |]; try (split; [discriminate|intros [H _]; discriminate]).
  destruct (Z.leb_spec 0 z'), (Z.ltb_spec z' (2 ^ 64)); cbn [andb]; split; intros H'; try discriminate;
    try (inv H'; split; [reflexivity|lia]); destruct H' as [H' ?]; inv H'; try lia; reflexivity.
Qed.
Lemma number_parse a k z : parse_as_u64 a k = Ok z -> number_arg a k (Z.to_nat z).
Proof. intros H. apply u64_iff in H. destruct H as [H1 H2]. exists z. auto. Qed.

Lemma texts_parse a k l : parse_as_vec_string a k = Ok l <-> texts_arg a k l.
Proof.
  unfold parse_as_vec_string, texts_arg. destruct (sget k a) as [j|]; cbn [ok_or bind]; [|split; discriminate].
  destruct j as [| | | | |js|]; try (split; discriminate).
  assert (G : forall js l, mapM (fun j => match j with JStr s => Ok s | _ => Err EOther end) js = Ok l <-> js = map JStr l).
  { clear. induction js as [|j js IH]; intros l.
    - cbn [mapM]. split; [intros H; inv H; reflexivity|destruct l; [reflexivity|discriminate]].
    - cbn [mapM]. split.
      + intros H. bind_inv H. bind_inv H. inv H. apply IH in E0. destruct j; inv E. reflexivity.
      + intros H. destruct l as [|s l]; [discriminate|]. cbn [map] in H. injection H as -> H. cbn [bind].
        rewrite (proj2 (IH l) H). reflexivity. }
  rewrite G. split; [intros ->; reflexivity|intros H; inv H; reflexivity].
Qed.

Lemma scheme_code_iff z sc : (0 <= z)%Z -> scheme_from_u8 (Z.to_nat z) = Ok sc <-> scheme_code z sc.
Proof.
  intros Hz. rewrite <- (Z2Nat.id z Hz) at 2. generalize (Z.to_nat z) as n. clear. intros n.
  destruct n as [|[|[|n]]]; destruct sc; cbn [scheme_from_u8 scheme_code]; split; intros H; try discriminate; try lia; reflexivity.
Qed.

Lemma scheme_parse a z sc : parse_as_u64 a $"tagging_scheme_code" = Ok z ->
  scheme_from_u8 (Z.to_nat (z mod 256)) = Ok sc -> scheme_arg a sc.
Proof.
  intros H1 H2. apply u64_iff in H1. destruct H1 as [H1 H3]. exists z. split; [exact H1|]. split; [exact H3|].
  apply scheme_code_iff in H2; [exact H2|]. apply Z.mod_pos_bound. lia.
Qed.
Lemma scheme_known a sc : scheme_arg a sc -> exists z, parse_as_u64 a $"tagging_scheme_code" = Ok z /\
  scheme_from_u8 (Z.to_nat (z mod 256)) = Ok sc.
Proof.
  intros (z & H1 & H2 & H3). exists z. split; [apply u64_iff; auto|]. apply scheme_code_iff; [|exact H3].
  apply Z.mod_pos_bound. lia.
Qed.

Lemma stemmer_parse res a b o : parse_as_bool a $"use_stemming" = Ok b ->
  (if b then let* s := ok_or EOther (rs_stemmer res) in Ok (Some s) else Ok None) = Ok o -> stemmer_arg res a o.
Proof.
  unfold parse_as_bool. destruct (sget $"use_stemming" a) as [j|] eqn:Es; cbn [ok_or bind]; [|discriminate].
  destruct j; try discriminate. intros H1 H2. inv H1. destruct b.
  - destruct (rs_stemmer res) eqn:Er; cbn [ok_or bind] in H2; [|discriminate]. inv H2. constructor; assumption.
  - inv H2. constructor. assumption.
Qed.
Lemma stemmer_known res a o : stemmer_arg res a o -> exists b, parse_as_bool a $"use_stemming" = Ok b /\
  (if b then let* s := ok_or EOther (rs_stemmer res) in Ok (Some s) else Ok None) = Ok o.
Proof.
  unfold parse_as_bool. intros [st H1 H2|H1]; rewrite H1; cbn [ok_or bind].
  - exists true. rewrite H2. auto.
  - exists false. auto.
Qed.

Lemma gazetteer_parse res a n o : parse_as_opt_string a $"common_words_gazetteer_name" = Ok n ->
  match n with
  | Some g => let* r := ok_or EOther (sget g (rs_gazetteers res)) in Ok (Some r)
  | None => Ok None
  end = Ok o -> gazetteer_arg res a o.
Proof.
  unfold parse_as_opt_string. destruct (sget $"common_words_gazetteer_name" a) as [j|] eqn:Es; cbn [ok_or bind]; [|discriminate].
  intros H1 H2. inv H1.
  destruct j; try (inv H2; eapply without_gazetteer; [exact Es|intros ?; discriminate]).
  destruct (sget s (rs_gazetteers res)) eqn:Er; cbn [ok_or bind] in H2; [|discriminate]. inv H2. econstructor; eassumption.
Qed.
Lemma gazetteer_known res a o : gazetteer_arg res a o -> exists n, parse_as_opt_string a $"common_words_gazetteer_name" = Ok n /\
  match n with
  | Some g => let* r := ok_or EOther (sget g (rs_gazetteers res)) in Ok (Some r)
  | None => Ok None
  end = Ok o.
Proof.
  unfold parse_as_opt_string. intros [n g H1 H2|j H1 H2]; rewrite H1; cbn [ok_or bind].
  - exists (Some n). rewrite H2. auto.
  - exists None. split; [|reflexivity]. destruct j; try reflexivity. exfalso. eapply H2. reflexivity.
Qed.

Lemma Forall2_map_r {A B C} (R : A -> C -> Prop) (f : A -> B) (P : B -> C -> Prop) l l' :
  Forall2 R l l' -> (forall a c, R a c -> P (f a) c) -> Forall2 P (map f l) l'.
Proof. intros H G. induction H; constructor; auto. Qed.

(** ** The features of a factory *)
Lemma features_meaning x shape f res fos : get_features x shape f res = Ok fos ->
  exists specs, described x shape res (ff_args f) (ff_name f) specs /\
    Forall2 (right_feature (ff_offsets f)) fos specs.
Proof.
  intros H. unfold get_features in H.
  match type of H with (let* fs := ?m in _) = _ => destruct m as [fs|e|] eqn:E; cbn [bind] in H; try discriminate end.
  injection H as <-.
  assert (One : forall ft name (m : meaning), ft_name ft = name ->
    (forall toks i v, i < length toks -> ft_compute ft toks i = Ok v -> m toks i v) ->
    Forall2 (right_feature (ff_offsets f)) (map (fun ft => mkFO ft (ff_offsets f)) [ft]) [(name, m)]).
  { intros ft name m H1 H2. constructor; [|constructor]. split; [exact H1|]. split; [reflexivity|exact H2]. }
  assert (Many : forall {A} (g : A -> Feature) (n : A -> str) (m : A -> meaning) l, (forall a, ft_name (g a) = n a) ->
    (forall a toks i v, i < length toks -> ft_compute (g a) toks i = Ok v -> m a toks i v) ->
    Forall2 (right_feature (ff_offsets f)) (map (fun ft => mkFO ft (ff_offsets f)) (map g l)) (map (fun a => (n a, m a)) l)).
  { intros A g n m l H1 H2. induction l; [constructor|]. constructor; [|exact IHl].
    split; [apply H1|]. split; [reflexivity|apply H2]. }
  repeat match type of E with (if ?c then _ else _) = _ =>
    let Hc := fresh "Hc" in destruct c eqn:Hc; [apply str_eqb_spec in Hc; rewrite Hc|clear Hc] end; try discriminate.
  - inv E. eexists. split; [constructor|]. apply One; [reflexivity|]. intros; apply digit_meaning; assumption.
  - inv E. eexists. split; [constructor|]. apply One; [reflexivity|]. intros; apply length_meaning; assumption.
  - inv E. eexists. split; [constructor|]. apply One; [reflexivity|]. intros; apply first_meaning; assumption.
  - inv E. eexists. split; [constructor|]. apply One; [reflexivity|]. intros; apply last_meaning; assumption.
  - unfold build_ngram in E. bind_inv E. bind_inv E. bind_inv E. bind_inv E. bind_inv E. inv E.
    eexists. split; [eapply d_ngram; [eapply number_parse|eapply gazetteer_parse|eapply stemmer_parse]; eassumption|].
    apply One; [reflexivity|]. intros; apply ngram_meaning; assumption.
  - unfold build_shape_ngram in E. bind_inv E. inv E.
    eexists. split; [eapply d_shape; eapply number_parse; eassumption|].
    apply One; [reflexivity|]. intros; apply shape_meaning; assumption.
  - unfold build_prefix in E. bind_inv E. inv E.
    eexists. split; [eapply d_prefix; eapply number_parse; eassumption|].
    apply One; [reflexivity|]. intros; apply prefix_meaning; assumption.
  - unfold build_suffix in E. bind_inv E. inv E.
    eexists. split; [eapply d_suffix; eapply number_parse; eassumption|].
    apply One; [reflexivity|]. intros; apply suffix_meaning; assumption.
  - unfold build_entity_match in E. bind_inv E. bind_inv E. bind_inv E. bind_inv E. bind_inv E. inv E.
    eexists. split; [eapply d_entity; [apply texts_parse|eapply scheme_parse|eapply stemmer_parse]; eassumption|].
    apply Many; [reflexivity|]. intros; apply entity_meaning; assumption.
  - unfold build_builtin_match in E. bind_inv E. bind_inv E. bind_inv E.
    assert (G : forall l, mapM (fun l => let* k := ok_or EOther (x_kind_of_identifier x l) in
                   Ok (builtin_match_feature k a1 (rs_builtin res))) l = Ok fs ->
              exists ks, Forall2 (fun e k => x_kind_of_identifier x e = Some k) l ks /\
                fs = map (fun k => builtin_match_feature k a1 (rs_builtin res)) ks).
    { clear. revert fs. intros fs l. revert fs. induction l as [|e l IH]; intros fs H; cbn [mapM] in H.
      - inv H. exists []. split; [constructor|reflexivity].
      - bind_inv H. bind_inv H. inv H. bind_inv E. inv E. destruct (x_kind_of_identifier x e) as [k|] eqn:Ek; inv E1.
        destruct (IH _ E0) as (ks & K1 & K2). exists (a2 :: ks). split; [constructor; assumption|]. rewrite K2. reflexivity. }
    destruct (G _ E) as (ks & K1 & ->).
    eexists. split; [eapply d_builtin; [apply texts_parse; eassumption|eapply scheme_parse; eassumption|exact K1]|].
    apply Many; [reflexivity|]. intros; apply builtin_meaning; assumption.
  - unfold build_word_cluster in E. bind_inv E. bind_inv E. inv E.
    unfold parse_as_string in E0. destruct (sget $"cluster_name" (ff_args f)) as [j|] eqn:Ej; cbn [ok_or bind] in E0; [|discriminate].
    destruct j; inv E0. destruct (sget a (rs_clusterers res)) as [c|] eqn:Ec; inv E1.
    eexists. split; [eapply d_cluster; eassumption|]. apply One; [reflexivity|]. intros; eapply cluster_meaning; eassumption.
Qed.

Lemma described_builds x shape f res specs : described x shape res (ff_args f) (ff_name f) specs ->
  exists fos, get_features x shape f res = Ok fos.
Proof.
  intros H. unfold get_features. remember (ff_name f) as n eqn:Hn. clear Hn. 
  assert (U : forall k n, number_arg (ff_args f) k n -> exists z, parse_as_u64 (ff_args f) k = Ok z).
  { intros k m (z & H1 & H2 & _). exists z. apply u64_iff. auto. }
  inversion H; subst; cbn [bind]; try (eexists; reflexivity).
  - apply U in H0. destruct H0 as [z Hz]. destruct (gazetteer_known _ _ _ H1) as (nm & G1 & G2).
    destruct (stemmer_known _ _ _ H2) as (b & B1 & B2).
    change (if str_eqb $"ngram" $"is_digit" then _ else _) with (build_ngram x (ff_args f) res).
    unfold build_ngram. rewrite Hz. cbn [bind]. rewrite G1. cbn [bind]. rewrite G2. cbn [bind]. rewrite B1. cbn [bind].
    rewrite B2. cbn [bind]. eexists; reflexivity.
  - apply U in H0. destruct H0 as [z Hz].
    change (if str_eqb $"shape_ngram" $"is_digit" then _ else _) with (build_shape_ngram shape (ff_args f)).
    unfold build_shape_ngram. rewrite Hz. eexists; reflexivity.
  - apply U in H0. destruct H0 as [z Hz].
    change (if str_eqb $"prefix" $"is_digit" then _ else _) with (build_prefix x (ff_args f)).
    unfold build_prefix. rewrite Hz. eexists; reflexivity.
  - apply U in H0. destruct H0 as [z Hz].
    change (if str_eqb $"suffix" $"is_digit" then _ else _) with (build_suffix x (ff_args f)).
    unfold build_suffix. rewrite Hz. eexists; reflexivity.
  - change (if str_eqb $"word_cluster" $"is_digit" then _ else _) with (build_word_cluster x (ff_args f) res).
    unfold build_word_cluster, parse_as_string. rewrite H0. cbn [ok_or bind]. rewrite H1. eexists; reflexivity.
  - change (if str_eqb $"entity_match" $"is_digit" then _ else _) with (build_entity_match x (ff_args f) res).
    unfold build_entity_match. apply texts_parse in H0. rewrite H0. cbn [bind].
    destruct (scheme_known _ _ H1) as (z & Z1 & Z2). rewrite Z1. cbn [bind]. rewrite Z2. cbn [bind].
    destruct (stemmer_known _ _ _ H2) as (b & B1 & B2). rewrite B1. cbn [bind]. rewrite B2. eexists; reflexivity.
  - change (if str_eqb $"builtin_entity_match" $"is_digit" then _ else _) with (build_builtin_match x (ff_args f) res).
    unfold build_builtin_match. apply texts_parse in H0. rewrite H0. cbn [bind].
    destruct (scheme_known _ _ H1) as (z & Z1 & Z2). rewrite Z1. cbn [bind]. rewrite Z2. cbn [bind].
    assert (G : exists fs, mapM (fun l => let* k := ok_or EOther (x_kind_of_identifier x l) in
                   Ok (builtin_match_feature k sc (rs_builtin res))) l = Ok fs).
    { clear - H2. induction H2 as [|e k l ks Hk _ IH]; [eexists; reflexivity|]. destruct IH as [fs IH].
      cbn [mapM]. rewrite Hk. cbn [ok_or bind]. rewrite IH. eexists; reflexivity. }
    destruct G as [fs ->]. eexists; reflexivity.
Qed.

Lemma not_described_errs x shape f res : (forall specs, ~ described x shape res (ff_args f) (ff_name f) specs) ->
  exists e, get_features x shape f res = Err e.
Proof.
  intros H. destruct (get_features x shape f res) as [fos|e|] eqn:G; [|eauto|].
  - destruct (features_meaning _ _ _ _ _ G) as (specs & D & _). exfalso. eapply H, D.
  - exfalso. unfold get_features in G.
    match type of G with (let* fs := ?m in _) = _ => destruct m as [fs|e|] eqn:E; cbn [bind] in G; try discriminate end.
    assert (U : forall k, parse_as_u64 (ff_args f) k <> Panic).
    { intros k. unfold parse_as_u64. destruct (sget k (ff_args f)) as [j|]; cbn [ok_or bind]; [|discriminate].
      destruct j; try discriminate. destruct ((0 <=? z) && (z <? 2 ^ 64))%Z; discriminate. }
    assert (B : parse_as_bool (ff_args f) $"use_stemming" <> Panic).
    { unfold parse_as_bool. destruct (sget _ (ff_args f)) as [j|]; cbn [ok_or bind]; [|discriminate]. destruct j; discriminate. }
    assert (O : forall k, parse_as_opt_string (ff_args f) k <> Panic).
    { intros k. unfold parse_as_opt_string. destruct (sget k (ff_args f)) as [j|]; cbn [ok_or bind]; discriminate. }
    assert (V : forall k, parse_as_vec_string (ff_args f) k <> Panic).
    { intros k. unfold parse_as_vec_string. destruct (sget k (ff_args f)) as [j|]; cbn [ok_or bind]; [|discriminate].
      destruct j; try discriminate. apply mapM_not_panic. intros j _. destruct j; discriminate. }
    assert (C : forall c, scheme_from_u8 c <> Panic).
    { intros [|[|[|c]]]; discriminate. }
    assert (S : forall b : bool, (if b then let* s := ok_or EOther (rs_stemmer res) in Ok (Some s) else Ok None) <> Panic).
    { intros []; [|discriminate]. destruct (rs_stemmer res); discriminate. }
    repeat match type of E with (if ?c then _ else _) = _ => destruct c end; try discriminate;
      unfold build_ngram, build_shape_ngram, build_prefix, build_suffix, build_entity_match, build_builtin_match, build_word_cluster in E;
      repeat match type of E with
      | (let* _ := parse_as_u64 ?a ?k in _) = _ => specialize (U k); destruct (parse_as_u64 a k); cbn [bind] in E; try discriminate; try congruence
      | (let* _ := parse_as_bool ?a ?k in _) = _ => destruct (parse_as_bool a k); cbn [bind] in E; try discriminate; try congruence
      | (let* _ := parse_as_opt_string ?a ?k in _) = _ => specialize (O k); destruct (parse_as_opt_string a k); cbn [bind] in E; try discriminate; try congruence
      | (let* _ := parse_as_vec_string ?a ?k in _) = _ => specialize (V k); destruct (parse_as_vec_string a k); cbn [bind] in E; try discriminate; try congruence
      | (let* _ := scheme_from_u8 ?c in _) = _ => specialize (C c); destruct (scheme_from_u8 c); cbn [bind] in E; try discriminate; try congruence
      | (let* _ := (if ?b then _ else _) in _) = _ => destruct b; cbn [bind] in E; try discriminate
      | (let* _ := (let* _ := ok_or _ ?o in _) in _) = _ => destruct o; cbn [ok_or bind] in E; try discriminate
      | (let* _ := (match ?o with Some _ => _ | None => _ end) in _) = _ => destruct o; cbn [bind] in E; try discriminate
      end.
    + revert E. apply mapM_not_panic. intros l _. destruct (x_kind_of_identifier x l); discriminate.
    + unfold parse_as_string in E. destruct (sget _ (ff_args f)) as [j|]; cbn [ok_or bind] in E; [|discriminate].
      destruct j; cbn [bind] in E; try discriminate. destruct (sget s (rs_clusterers res)); discriminate.
Qed.

(** The features of a slot filler. *)
Lemma filler_meaning x shape lang_of load_tagger m res cf : crf_new x shape lang_of load_tagger m res = Ok cf ->
  scheme_code (Z.of_nat (sm_scheme m)) (cf_scheme cf) /\ lang_of (sm_language m) = Some (cf_lang cf) /\
  cf_mapping cf = sm_mapping m /\
  match sm_crf_file m with
  | None => cf_tagger cf = None /\ cf_processor cf = None
  | Some name => exists tagger processor groups, load_tagger name = Ok tagger /\
      cf_tagger cf = Some tagger /\ cf_processor cf = Some processor /\
      Forall2 (fun f specs => described x shape res (ff_args f) (ff_name f) specs) (sm_factories m) groups /\
      Forall2 (fun fo (s : list Z * (str * meaning)) => right_feature (fst s) fo (snd s)) processor
        (concat (map (fun p => map (fun s => (ff_offsets (fst p), s)) (snd p)) (combine (sm_factories m) groups)))
  end.
Proof.
  intros H. unfold crf_new in H. bind_inv H. bind_inv H. bind_inv H. inv H. cbn [cf_scheme cf_lang cf_mapping cf_tagger cf_processor].
  split. { apply scheme_code_iff; [lia|]. rewrite Nat2Z.id. exact E. }
  split. { destruct (lang_of (sm_language m)); inv E1. reflexivity. }
  split; [reflexivity|]. destruct (sm_crf_file m) as [name|]; [|inv E0; auto].
  bind_inv E0. bind_inv E0. inv E0. unfold processor_new in E3. bind_inv E3. inv E3. cbn [fst snd].
  exists a2, (concat a0).
  assert (G : exists groups, Forall2 (fun f specs => described x shape res (ff_args f) (ff_name f) specs) (sm_factories m) groups /\
      Forall2 (fun fo (s : list Z * (str * meaning)) => right_feature (fst s) fo (snd s)) (concat a0)
        (concat (map (fun p => map (fun s => (ff_offsets (fst p), s)) (snd p)) (combine (sm_factories m) groups)))).
  { clear - E0. revert a0 E0. induction (sm_factories m) as [|f fs IH]; intros l H.
    - cbn [mapM] in H. inv H. exists []. split; constructor.
    - cbn [mapM] in H. bind_inv H. bind_inv H. inv H. destruct (IH _ E0) as (groups & G1 & G2).
      destruct (features_meaning _ _ _ _ _ E) as (specs & D1 & D2). exists (specs :: groups).
      split; [constructor; assumption|]. cbn [combine map concat fst snd]. apply Forall2_app; [|exact G2].
      clear - D2. induction D2; constructor; auto. }
  destruct G as (groups & G1 & G2). exists groups. auto.
Qed.

(** A code is reduced modulo 256. *)
Lemma code_truncated x shape res (entities : list str) :
  get_features x shape (mkFF $"entity_match" [0%Z]
    [($"entities", JArr (map JStr entities)); ($"tagging_scheme_code", JNum 257); ($"use_stemming", JBool false)]) res =
  get_features x shape (mkFF $"entity_match" [0%Z]
    [($"entities", JArr (map JStr entities)); ($"tagging_scheme_code", JNum 1); ($"use_stemming", JBool false)]) res /\
  exists e, get_features x shape (mkFF $"entity_match" [0%Z]
    [($"entities", JArr (map JStr entities)); ($"tagging_scheme_code", JNum 3); ($"use_stemming", JBool false)]) res = Err e.
Proof.
  split; [reflexivity|]. apply not_described_errs. intros specs D. cbn [ff_args ff_name] in D.
  inversion D as [| | | | | | | | | l sc st _ S _|]. destruct S as (z & Hz & _ & Hc). cbn in Hz. injection Hz as <-.
  destruct sc; cbn in Hc; discriminate.
Qed.
