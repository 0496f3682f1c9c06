(** Proofs for C90: the custom entity parser, the rule based parsers. *)
From Coq Require Import String List NArith ZArith Bool Arith Lia Permutation Sorted.
From Verif Require Import Base Sorting F32 M_Types M_Utils M_Engine M_Det M_Lookup M_Features M_Filler M_Cache M_Fs M_Json M_Load
  S_Base S_Utils S_Rank S_Det S_Rules S_Load S_Match S_Answer S_Made S_Seeds S_Case S_Pad
  P_Demo P_Base P_Utils P_Engine P_Det P_Rank P_Rules P_Match P_Seeds P_SeedsRules P_Case P_Pad.
Import ListNotations.
Local Open Scope list_scope.
Local Open Scope nat_scope.

(** ** Numbers *)
Definition eqm (a b : Z) : Prop := exists q, a = (b + q * 4294967296)%Z.
Lemma eqm_refl a : eqm a a.
Proof. exists 0%Z. lia. Qed.
Lemma eqm_i32 a : eqm (as_i32 a) a.
Proof.
  unfold as_i32, wrap. change (2 ^ (32 - 1))%Z with 2147483648%Z. change (2 ^ 32)%Z with 4294967296%Z.
  pose proof (Z.div_mod (a + 2147483648) 4294967296 ltac:(lia)) as D. exists (- ((a + 2147483648) / 4294967296))%Z. lia.
Qed.
Lemma i32_eqm a b : eqm a b -> as_i32 a = as_i32 b.
Proof.
  intros [q ->]. unfold as_i32, wrap. change (2 ^ (32 - 1))%Z with 2147483648%Z. change (2 ^ 32)%Z with 4294967296%Z.
  replace (b + q * 4294967296 + 2147483648)%Z with (b + 2147483648 + q * 4294967296)%Z by lia. rewrite Z.mod_add; lia.
Qed.
Lemma i32_range a : (-2147483648 <= as_i32 a < 2147483648)%Z.
Proof.
  unfold as_i32, wrap. change (2 ^ (32 - 1))%Z with 2147483648%Z. change (2 ^ 32)%Z with 4294967296%Z.
  pose proof (Z.mod_pos_bound (a + 2147483648) 4294967296). lia.
Qed.
Lemma repeat_mapped {A B} (g : A -> B) a m : map g (repeat a m) = repeat (g a) m.
Proof. induction m; simpl; f_equal; auto. Qed.
Lemma mapM_fails {A B} (g g' : A -> outcome B) l :
  (forall a, In a l -> match g a with Ok _ => exists b, g' a = Ok b | v => g' a = v end) ->
  match mapM g l with Ok _ => True | v => mapM g' l = v end.
Proof.
  induction l as [|a l IH]; intros H; simpl; auto. pose proof (H a (or_introl eq_refl)) as Ha.
  destruct (g a); [|rewrite Ha; reflexivity|rewrite Ha; reflexivity]. destruct Ha as [b' Hb]. rewrite Hb. cbn [bind].
  specialize (IH (fun a0 h => H a0 (or_intror h))). destruct (mapM g l); cbn [bind] in *; auto; rewrite IH; reflexivity.
Qed.

Lemma sorted_unique (m : list (range * range)) : StronglySorted (fun a b => rend (fst a) <= rstart (fst b) /\ rend (snd a) <= rstart (snd b)) m ->
  (forall a v, In (a, v) m -> rstart a < rend a) ->
  forall a b a' b', In (a, b) m -> In (a', b') m -> rend a = rend a' -> b = b'.
Proof.
  induction 1 as [|[c d] m S IH F]; intros W a b a' b' H H' E; [destruct H|]. rewrite Forall_forall in F.
  destruct H as [H|H], H' as [H'|H'].
  - congruence.
  - injection H as -> ->. destruct (F _ H') as [L _]. cbn [fst] in L. pose proof (W _ _ (or_intror H')). lia.
  - injection H' as -> ->. destruct (F _ H) as [L _]. cbn [fst] in L. pose proof (W _ _ (or_intror H)). lia.
  - eapply IH; eauto. intros; apply (W a0 v). right. auto.
Qed.

Section Pad.
  Context (n k : nat).
  Notation pad := (padded n k).
  Notation mvr := (moved n).

  (** ** Custom entities *)
  Lemma shifts_moved ts : forall pe pe' sh sh', eqm pe' (pe + Z.of_nat n) -> eqm sh' (sh - Z.of_nat n) ->
    char_shifts_from false pe' sh' (map (moved_token n) ts) = map (fun z => as_i32 (z - Z.of_nat n)) (char_shifts_from false pe sh ts).
  Proof.
    induction ts as [|t ts IH]; intros pe pe' sh sh' [q1 E1] [q2 E2]; auto. cbn [map char_shifts_from]. rewrite map_app.
    cbn [moved_token tk_char_range]. change (rstart (mvr (tk_char_range t))) with (n + rstart (tk_char_range t)). change (rend (mvr (tk_char_range t))) with (n + rend (tk_char_range t)).
    set (a := rstart (tk_char_range t)) in *. set (b := rend (tk_char_range t)) in *.
    replace (n + b - (n + a)) with (b - a) by lia.
    assert (Ez : eqm (as_i32 (sh' - (as_i32 (Z.of_nat (n + a) - pe') - 1))) (as_i32 (sh - (as_i32 (Z.of_nat a - pe) - 1)) - Z.of_nat n)).
    { destruct (eqm_i32 (sh' - (as_i32 (Z.of_nat (n + a) - pe') - 1))) as [u1 U1]. destruct (eqm_i32 (Z.of_nat (n + a) - pe')) as [u2 U2].
      destruct (eqm_i32 (sh - (as_i32 (Z.of_nat a - pe) - 1))) as [u3 U3]. destruct (eqm_i32 (Z.of_nat a - pe)) as [u4 U4].
      rewrite U1, U2, U3, U4. exists (q2 + u1 - u2 + q1 - u3 + u4)%Z. rewrite E1, E2. lia. }
    f_equal.
    - rewrite repeat_mapped. f_equal. rewrite <- (i32_eqm _ _ Ez). symmetry. apply as_i32_id, i32_range.
    - apply IH.
      + destruct (eqm_i32 (Z.of_nat (n + b))) as [u1 U1]. destruct (eqm_i32 (Z.of_nat b)) as [u2 U2]. rewrite U1, U2. exists (u1 - u2)%Z. lia.
      + exact Ez.
  Qed.
  Lemma first_shifts_moved ts : char_shifts_from true 0 0 (map (moved_token n) ts) = map (fun z => as_i32 (z - Z.of_nat n)) (char_shifts_from true 0 0 ts).
  Proof.
    destruct ts as [|t ts]; auto. cbn [map char_shifts_from]. rewrite map_app.
    cbn [moved_token tk_char_range]. change (rstart (mvr (tk_char_range t))) with (n + rstart (tk_char_range t)). change (rend (mvr (tk_char_range t))) with (n + rend (tk_char_range t)).
    set (a := rstart (tk_char_range t)) in *. set (b := rend (tk_char_range t)) in *.
    replace (n + b - (n + a)) with (b - a) by lia.
    assert (Ez : eqm (as_i32 (0 - (as_i32 (Z.of_nat (n + a) - 0) - 0))) (as_i32 (0 - (as_i32 (Z.of_nat a - 0) - 0)) - Z.of_nat n)).
    { destruct (eqm_i32 (0 - (as_i32 (Z.of_nat (n + a) - 0) - 0))) as [u1 U1]. destruct (eqm_i32 (Z.of_nat (n + a) - 0)) as [u2 U2].
      destruct (eqm_i32 (0 - (as_i32 (Z.of_nat a - 0) - 0))) as [u3 U3]. destruct (eqm_i32 (Z.of_nat a - 0)) as [u4 U4].
      rewrite U1, U2, U3, U4. exists (u1 - u2 - u3 + u4)%Z. lia. }
    f_equal.
    - rewrite repeat_mapped. f_equal. rewrite <- (i32_eqm _ _ Ez). symmetry. apply as_i32_id, i32_range.
    - apply shifts_moved; [|exact Ez].
      destruct (eqm_i32 (Z.of_nat (n + b))) as [u1 U1]. destruct (eqm_i32 (Z.of_nat b)) as [u2 U2]. rewrite U1, U2. exists (u1 - u2)%Z. lia.
  Qed.

  Lemma usize_moved len a s : (Z.of_nat (n + len) < 2147483648)%Z -> as_usize (as_i32 (as_i32 a - s)) <= len ->
    as_usize (as_i32 (as_i32 a - as_i32 (s - Z.of_nat n))) = n + as_usize (as_i32 (as_i32 a - s)).
  Proof.
    intros B H. set (v := as_i32 (as_i32 a - s)) in *. pose proof (i32_range (as_i32 a - s)) as R. fold v in R.
    assert (V : (0 <= v)%Z).
    { destruct (Z.le_gt_cases 0 v) as [|G]; auto. exfalso. unfold as_usize in H. change (2 ^ 64)%Z with 18446744073709551616%Z in H.
      rewrite <- (Z.mod_add v 1 18446744073709551616) in H by lia. rewrite Z.mod_small in H by lia. lia. }
    assert (U : as_usize v = Z.to_nat v) by (unfold as_usize; rewrite Z.mod_small; [reflexivity|change (2 ^ 64)%Z with 18446744073709551616%Z; lia]).
    rewrite U in *.
    assert (E : as_i32 (as_i32 a - as_i32 (s - Z.of_nat n)) = (v + Z.of_nat n)%Z).
    { rewrite <- (as_i32_id (v + Z.of_nat n)) by lia. apply i32_eqm. destruct (eqm_i32 (s - Z.of_nat n)) as [u1 U1]. destruct (eqm_i32 (as_i32 a - s)) as [u2 U2]. fold v in U2.
      rewrite U1, U2. exists (- u1 - u2)%Z. lia. }
    rewrite E. unfold as_usize. rewrite Z.mod_small by (change (2 ^ 64)%Z with 18446744073709551616%Z; lia). lia.
  Qed.

  Lemma remap_moved len shifts r q : (Z.of_nat (n + len) < 2147483648)%Z -> remap shifts r = Ok q -> rstart q <= len -> rend q <= len ->
    remap (map (fun z => as_i32 (z - Z.of_nat n)) shifts) r = Ok (mvr q).
  Proof.
    intros B H. unfold remap, index in *. rewrite !nth_error_map. destruct (nth_error shifts (rstart r)) as [s|]; [|discriminate]. cbn [option_map bind] in *.
    destruct (usub (rend r) 1) as [l| |]; [|discriminate|discriminate]. cbn [bind] in *. rewrite nth_error_map.
    destruct (nth_error shifts l) as [e|]; [|discriminate]. cbn [option_map bind] in *. injection H as <-. cbn [rstart rend fst snd]. intros H1 H2.
    unfold moved. cbn [rstart rend fst snd]. rewrite !(usize_moved len) by auto. reflexivity.
  Qed.
  Lemma remap_fails shifts r : match remap shifts r with Ok _ => True | v => remap (map (fun z => as_i32 (z - Z.of_nat n)) shifts) r = v end.
  Proof.
    unfold remap, index. rewrite !nth_error_map. destruct (nth_error shifts (rstart r)) as [s|]; [|reflexivity]. cbn [option_map bind].
    destruct (usub (rend r) 1) as [l| |]; [|reflexivity|reflexivity]. cbn [bind]. rewrite nth_error_map.
    destruct (nth_error shifts l) as [e|]; [|reflexivity]. exact I.
  Qed.

  (** The custom entity parser finds the same entities. *)
  Lemma custom_moved x l gaz s len kinds alts :
    (forall s, x_tokenize x l (pad s) = map (moved_token n) (x_tokenize x l s)) -> x_lower x (pad s) = pad (x_lower x s) ->
    (Z.of_nat (n + len) < 2147483648)%Z ->
    (forall es, custom_entities x l gaz s kinds alts = Ok es -> forall e, In e es -> rstart (ce_range e) <= len /\ rend (ce_range e) <= len) ->
    custom_entities x l gaz (pad s) kinds alts = on_ok (map (moved_custom n)) (custom_entities x l gaz s kinds alts).
  Proof.
    intros HT HL B H. unfold custom_entities, custom_extract in *. cbv zeta in *. rewrite HL, HT, map_map. cbn [moved_token tk_value].
    unfold compute_char_shifts in *. rewrite first_shifts_moved. destruct (gaz _ kinds alts) as [es| |]; auto. cbn [bind on_ok] in *.
    set (shifts := char_shifts_from true 0 0 _) in *. clearbody shifts.
    set (g := fun e => let* r := remap shifts (ce_range e) in Ok (mkCE (ce_value e) (ce_resolved e) (ce_alternatives e) r (ce_entity e))) in *.
    set (g' := fun e => let* r := remap (map (fun z => as_i32 (z - Z.of_nat n)) shifts) (ce_range e) in Ok (mkCE (ce_value e) (ce_resolved e) (ce_alternatives e) r (ce_entity e))).
    assert (G : match mapM g es with Ok _ => True | v => mapM g' es = v end).
    { apply mapM_fails. intros e _. unfold g, g'. pose proof (remap_fails shifts (ce_range e)) as RF.
      assert (RS : forall q, remap shifts (ce_range e) = Ok q -> exists q', remap (map (fun z => as_i32 (z - Z.of_nat n)) shifts) (ce_range e) = Ok q').
      { unfold remap, index. rewrite !nth_error_map. destruct (nth_error shifts (rstart (ce_range e))) as [z|]; [|discriminate]. cbn [option_map bind].
        destruct (usub (rend (ce_range e)) 1) as [m| |]; [|discriminate|discriminate]. cbn [bind]. rewrite nth_error_map.
        destruct (nth_error shifts m) as [z'|]; [|discriminate]. cbn [option_map bind]. eauto. }
      destruct (remap shifts (ce_range e)) as [q| |]; [|rewrite RF; reflexivity|rewrite RF; reflexivity].
      destruct (RS q eq_refl) as [q' ->]. cbn [bind]. eauto. }
    destruct (mapM g es) as [out| |] eqn:Eo; [|exact G|exact G]. clear G. cbn [on_ok]. specialize (H out eq_refl).
    revert out Eo H. induction es as [|e es IH]; intros out Eo H; cbn [mapM] in *; [injection Eo as <-; reflexivity|].
    bind_inv Eo. bind_inv Eo. injection Eo as <-. unfold g in E. bind_inv E. injection E as <-.
    unfold g' at 1. destruct (H _ (or_introl eq_refl)) as [H1 H2]. cbn [ce_range] in *. rewrite (remap_moved len _ _ _ B E1 H1 H2). cbn [bind].
    rewrite (IH _ E0) by (intros e' He'; apply H; right; exact He'). reflexivity.
  Qed.

  (** ** Places of placeholders *)
  Lemma hget_moved q (m : list (range * range)) : hget range_eqb (mvr q) (map (moved_place n) m) = option_map mvr (hget range_eqb q m).
  Proof. induction m as [|[a b] m IH]; simpl; auto. rewrite moved_eqb. destruct (range_eqb q a); auto. Qed.
  Lemma restore_moved (m m' : list (range * range)) q :
    Permutation (map (moved_place n) m) m' -> NoDup (hkeys m) ->
    (forall a b, In (a, b) m -> 0 < rend a /\ (Z.of_nat (rend a) < 65536)%Z /\ (Z.of_nat (rend b) < 65536)%Z) ->
    (forall a b a' b', In (a, b) m -> In (a', b') m -> rend a = rend a' -> b = b') ->
    rstart q <= rend q -> (Z.of_nat (rend q) < 65536)%Z -> (Z.of_nat n < 65536)%Z ->
    restore_range m' (mvr q) = mvr (restore_range m q).
  Proof.
    intros P ND Bd U Q1 Q2 Bn. unfold restore_range.
    assert (ND' : NoDup (hkeys (map (moved_place n) m))).
    { unfold hkeys in *. rewrite map_map. cbn [moved_place fst]. rewrite <- (map_map fst mvr). apply FinFun.Injective_map_NoDup; auto. intros a b. apply moved_inj. }
    rewrite <- (hget_perm _ range_eqb_spec _ _ (mvr q) ND' P), hget_moved. destruct (hget range_eqb q m) as [o|]; auto. cbn [option_map].
    unfold get_range_shift.
    rewrite <- (shift_perm (rstart (mvr q)) _ _ P).
    2: { intros a b a' b' H H' E. apply in_map_iff in H as ([c d] & [= <- <-] & H). apply in_map_iff in H' as ([c' d'] & [= <- <-] & H').
         unfold moved in E. cbn [rend snd] in E. assert (E' : rend c = rend c') by lia. rewrite (U _ _ _ _ H H' E'). reflexivity. }
    change (rstart (mvr q)) with (n + rstart q). change (rend (mvr q)) with (n + rend q).
    destruct (shift_fold (rstart q) m 0%Z 0) as [[H1 N1]|(k1 & v1 & I1 & L1 & P1 & H1 & M1)];
    destruct (shift_fold (n + rstart q) (map (moved_place n) m) 0%Z 0) as [[H2 N2]|(k2 & v2 & I2 & L2 & P2 & H2 & M2)]; cbv zeta in *; rewrite H1, H2; cbn [fst].
    - rewrite !Z.add_0_r. rewrite !(as_i32_id (Z.of_nat _)) by lia. rewrite !as_usize_nat by (change (2 ^ 64)%Z with 18446744073709551616%Z; lia). reflexivity.
    - exfalso. apply in_map_iff in I2 as ([c d] & [= <- <-] & I2). unfold moved in L2. cbn [rend snd] in L2.
      pose proof (N1 c d I2 ltac:(lia)). pose proof (Bd c d I2). lia.
    - exfalso. pose proof (in_map (moved_place n) _ _ I1) as I1'. cbn [moved_place fst snd] in I1'. unfold moved_place in I1'. cbn [fst snd] in I1'.
      pose proof (N2 _ _ I1') as Q. unfold moved in Q. cbn [rend snd] in Q. lia.
    - apply in_map_iff in I2 as ([c d] & [= <- <-] & I2). unfold moved in L2. cbn [rend snd] in L2.
      pose proof (M1 c d I2 ltac:(lia)) as G1.
      pose proof (in_map (moved_place n) _ _ I1) as I1'. unfold moved_place in I1'. cbn [fst snd] in I1'.
      pose proof (M2 _ _ I1') as G2. unfold moved in G2. cbn [rend snd] in G2.
      assert (E : rend k1 = rend c) by lia. pose proof (U _ _ _ _ I1 I2 E) as Ev. rewrite <- Ev in *. clear Ev.
      change (rend (mvr v1)) with (n + rend v1). change (rend (mvr c)) with (n + rend c). pose proof (Bd _ _ I1) as B1.
      rewrite <- E.
      assert (K1 : as_i32 (as_i32 (Z.of_nat (rend v1)) - as_i32 (Z.of_nat (rend k1))) = (Z.of_nat (rend v1) - Z.of_nat (rend k1))%Z)
        by (rewrite !(as_i32_id (Z.of_nat _)) by lia; rewrite as_i32_id by lia; reflexivity).
      assert (K2 : as_i32 (as_i32 (Z.of_nat (n + rend v1)) - as_i32 (Z.of_nat (n + rend k1))) = (Z.of_nat (rend v1) - Z.of_nat (rend k1))%Z)
        by (rewrite !(as_i32_id (Z.of_nat _)) by lia; rewrite as_i32_id by lia; lia).
      rewrite K1, K2. rewrite !(as_i32_id (Z.of_nat _)) by lia. rewrite !as_i32_id by lia.
      unfold moved, as_usize. cbn [rstart rend fst snd]. rewrite !Z.mod_small by (change (2 ^ 64)%Z with 18446744073709551616%Z; lia).
      f_equal; lia.
  Qed.

  (** ** Patterns *)
  Context (x : Ext).
  Hypothesis HT : forall l s, x_tokenize x l (pad s) = map (moved_token n) (x_tokenize x l s).
  Hypothesis HW : forall l s, x_tokenize_light x l (pad s) = x_tokenize_light x l s.
  Hypothesis TO : tokenizer_ok x.

  Lemma usub_moved a b : usub (n + a) (n + b) = usub a b.
  Proof.
    unfold usub. replace (n + b <=? n + a) with (b <=? a); [destruct (b <=? a); auto; f_equal; lia|].
    destruct (Nat.leb_spec b a); symmetry; [apply Nat.leb_le|apply Nat.leb_gt]; lia.
  Qed.
  Lemma preprocess_moved dp s i : det_preprocess x dp (pad s) i = on_ok pad (det_preprocess x dp s i).
  Proof.
    destruct (det_preprocess_blanked x dp s i (TO _ _)) as (s' & E & _). rewrite E. revert E.
    unfold det_preprocess. rewrite HT, pad_length. set (stop := stop_words_of _ _ _).
    set (mst := fun st : str * nat => (repeat 32%N n ++ fst st, n + snd st)).
    assert (St : forall t st, preprocess_step x stop (on_ok mst st) (moved_token n t) = on_ok mst (preprocess_step x stop st t)).
    { intros t [st| |]; auto. unfold preprocess_step. cbn [on_ok bind moved_token tk_value tk_char_range mst fst snd].
      change (rstart (mvr (tk_char_range t))) with (n + rstart (tk_char_range t)). rewrite usub_moved.
      destruct (usub _ _); auto. cbn [bind on_ok mst fst snd]. rewrite <- app_assoc. reflexivity. }
    assert (G : forall ts st, fold_left (preprocess_step x stop) (map (moved_token n) ts) (on_ok mst st) = on_ok mst (fold_left (preprocess_step x stop) ts st)).
    { induction ts as [|t ts IH]; intros st; auto. cbn [map fold_left]. rewrite St. apply IH. }
    destruct (x_tokenize x (dp_lang dp) s) as [|t ts].
    - cbn. rewrite !Nat.sub_0_r. intros [= <-]. unfold padded, spaces, space. cbn [on_ok]. rewrite !repeat_app, <- app_assoc. reflexivity.
    - cbn [map fold_left].
      assert (F : preprocess_step x stop (Ok ([], 0)) (moved_token n t) = on_ok mst (preprocess_step x stop (Ok ([], 0)) t)).
      { unfold preprocess_step. cbn [bind moved_token tk_value tk_char_range fst snd]. change (rstart (mvr (tk_char_range t))) with (n + rstart (tk_char_range t)).
        unfold usub. cbn [Nat.leb]. rewrite !Nat.sub_0_r. cbn [bind on_ok mst fst snd app]. unfold mst. cbn [fst snd].
        unfold spaces, space. rewrite repeat_app, <- app_assoc. reflexivity. }
      rewrite F, G. destruct (fold_left (preprocess_step x stop) ts _) as [st| |]; [|discriminate|discriminate]. cbn [on_ok bind mst fst snd].
      intros E. bind_inv E. injection E as <-. unfold usub in *. destruct (Nat.leb_spec (snd st) (length s)) as [Le|]; [|discriminate]. injection E0 as <-.
      assert (Q : (n + snd st <=? n + length s + k) = true) by (apply Nat.leb_le; lia). rewrite Q. cbn [bind]. unfold padded. f_equal.
      rewrite <- !app_assoc. do 2 f_equal. replace (n + length s + k - (n + snd st)) with (length s - snd st + k) by lia. unfold spaces. apply repeat_app.
  Qed.

  Definition moved_result (r : InternalParsingResult) : InternalParsingResult := mkIPR (pr_intent r) (map (moved_internal n) (pr_slots r)).

  Lemma dedup_slots_moved l sl : deduplicate_overlapping_slots x l (map (moved_internal n) sl) = map (moved_internal n) (deduplicate_overlapping_slots x l sl).
  Proof.
    apply mv_map. unfold deduplicate_overlapping_slots. apply sort_start_rel with (n := n) (start := fun e => rstart (is_range e)); [intros a a' ->; reflexivity|].
    unfold deduplicate_overlapping_items. apply dedup_rel; [| |constructor].
    - intros a a' b b' -> ->. simpl. symmetry. apply moved_overlap.
    - apply sort_key_rel; [|apply mv_map; reflexivity]. intros a a' ->. reflexivity.
  Qed.
  Lemma mapM_moved {A B B'} (h : B -> B') (g : A -> outcome B) (g' : A -> outcome B') l :
    (forall a, In a l -> g' a = on_ok h (g a)) -> mapM g' l = on_ok (map h) (mapM g l).
  Proof.
    induction l as [|a l IH]; intros H; auto. cbn [mapM]. rewrite H by (left; auto). destruct (g a); auto. cbn [on_ok bind].
    rewrite IH by (intros; apply H; right; auto). destruct (mapM g l); reflexivity.
  Qed.
  Lemma mapM_map {A B C} (f : A -> B) (g : B -> outcome C) l : mapM g (map f l) = mapM (fun a => g (f a)) l.
  Proof. induction l as [|a l IH]; auto. cbn [map mapM]. rewrite IH. reflexivity. Qed.
  Lemma named_moved caps caps' : skipn 1 caps' = map (moved_group n) (skipn 1 caps) ->
    named_groups caps' = map (fun g => (fst g, mvr (snd g))) (named_groups caps).
  Proof.
    intros E. unfold named_groups. rewrite E. clear E. induction (skipn 1 caps) as [|[[nm|] [r|]] l IH]; simpl; auto. f_equal; auto.
  Qed.
  Lemma named_In caps nm rg : In (nm, rg) (named_groups caps) -> In (Some nm, Some rg) (skipn 1 caps).
  Proof.
    unfold named_groups. induction (skipn 1 caps) as [|[[nm'|] [r|]] l IH]; simpl; auto. intros [[= <- <-]|H]; auto.
  Qed.

  Section Det.
    Context (dp : DetParser) (ord : HashOrder) (input : str).
    Hypothesis RB : forall kinds c m, rs_builtin (dp_res dp) (pad input) kinds c m = on_ok (map (moved_entity n)) (rs_builtin (dp_res dp) input kinds c m).
    Hypothesis RC : forall kinds m, rs_custom (dp_res dp) (pad input) kinds m = on_ok (map (moved_custom n)) (rs_custom (dp_res dp) input kinds m).
    Hypothesis Bok : builtin_parser_ok (rs_builtin (dp_res dp)) input.
    Hypothesis Cok : custom_parser_ok (rs_custom (dp_res dp)) input.
    Hypothesis Short : (Z.of_nat (length (pad input)) < 32768)%Z.
    Hypothesis Short' : forall i sc es, In (i, sc) (dp_scopes dp) -> entities_found (dp_res dp) input sc es ->
      (Z.of_nat (length (pad (snd (replace_entities input es (get_entity_placeholder x))))) < 32768)%Z.
    Hypothesis RM : forall i rs re, In (i, rs) (dp_regexes dp) -> In re rs -> allows_margins re.
    Hypothesis PA : patterns_aligned x dp input.

    Lemma replace_moved ph es mapping formatted : (forall e, In e es -> wf_range (length input) (me_range e) /\ ph (me_name e) <> []) ->
      replace_entities input es ph = (mapping, formatted) -> (Z.of_nat (length (pad formatted)) < 32768)%Z ->
      replace_entities (pad input) (map (moved_matched n) es) ph = (map (moved_place n) mapping, pad formatted).
    Proof.
      intros W E B. pose proof (pad_length n k input) as L1. pose proof (pad_length n k formatted) as L2.
      destruct (replaced input es ph mapping formatted W ltac:(lia) E ltac:(lia)) as (-> & -> & OK & NE).
      destruct (replace_entities (pad input) (map (moved_matched n) es) ph) as [mp' fm'] eqn:E'.
      assert (W' : forall e, In e (map (moved_matched n) es) -> wf_range (length (pad input)) (me_range e) /\ ph (me_name e) <> []).
      { intros e He. apply in_map_iff in He as (e0 & <- & He). destruct (W e0 He) as [W1 W2]. split; auto. unfold wf_range in *.
        cbn [moved_matched me_range moved rstart rend fst snd]. lia. }
      assert (T : fm' = pad (apply_edits input 0 (edits_of ph (deduplicate_overlapping_entities es)))).
      { pose proof (replace_entities_text (pad input) (map (moved_matched n) es) ph) as T. rewrite E' in T. cbn [snd] in T. rewrite T.
        rewrite dedup_moved, edits_moved. apply apply_moved_0. exact OK. }
      rewrite <- T in B. destruct (replaced (pad input) _ ph mp' fm' W' Short E' B) as (-> & _).
      f_equal; auto. rewrite dedup_moved, edits_moved. apply positions_moved_0 with (m := length input). exact OK.
    Qed.

    Lemma group_slot_moved fmt i (mp mp' : option (list (range * range))) g :
      let back := fun q => match mp with Some m => restore_range m q | None => q end in
      let back' := fun q => match mp' with Some m => restore_range m q | None => q end in
      let q := convert_to_char_range fmt (snd g) in
      rstart (snd g) <= byte_len fmt -> rend (snd g) <= byte_len fmt -> back' (mvr q) = mvr (back q) -> rend (back q) <= length input ->
      slot_of_group dp (pad input) (pad fmt) i mp' (fst g, mvr (snd g)) = on_ok (moved_internal n) (slot_of_group dp input fmt i mp g).
    Proof.
      cbv zeta. intros B1 B2 E1 E2. unfold slot_of_group. cbn [fst snd]. rewrite pad_char_range by auto.
      destruct (sindex _ (dp_groups dp)); auto. cbn [bind]. destruct (sindex i (dp_slots dp)); auto. cbn [bind].
      destruct (sindex a a0); auto. cbn [bind on_ok]. unfold moved_internal. cbn [is_value is_range is_entity is_slot_name]. cbv zeta.
      rewrite E1, (pad_substring n k input _ E2). reflexivity.
    Qed.

    Lemma matching_moved fmt re i mp mp' : allows_margins re ->
      (forall caps, re fmt = Some caps -> forall nm rg, In (nm, Some rg) (skipn 1 caps) ->
         let q := convert_to_char_range fmt rg in inside fmt q ->
         match mp' with Some m => restore_range m (mvr q) | None => mvr q end = mvr (match mp with Some m => restore_range m q | None => q end) /\
         rend (match mp with Some m => restore_range m q | None => q end) <= length input) ->
      get_matching_result x dp (pad input) (pad fmt) re i mp' = on_ok (option_map moved_result) (get_matching_result x dp input fmt re i mp).
    Proof.
      intros [OK RE] H. unfold get_matching_result. specialize (RE n k fmt). destruct (re fmt) as [caps|] eqn:Er, (re (pad fmt)) as [caps'|]; try contradiction; auto.
      rewrite (named_moved _ _ RE), mapM_map. rewrite (mapM_moved (moved_internal n) (slot_of_group dp input fmt i mp)).
      - destruct (mapM _ _); auto. cbn [on_ok bind option_map]. unfold moved_result. cbn [pr_intent pr_slots]. rewrite dedup_slots_moved. reflexivity.
      - intros [nm rg] Hg. cbn [fst snd]. apply named_In in Hg. assert (Hg' : In (Some nm, Some rg) caps) by (destruct caps; [exact Hg|right; exact Hg]).
        destruct (OK fmt caps Er _ rg Hg') as (a & b & Hab & Hb & Erg).
        assert (In1 : inside fmt (convert_to_char_range fmt rg)) by (eapply regex_group_inside; eauto).
        destruct (H caps eq_refl _ _ Hg In1) as [H1 H2].
        apply (group_slot_moved fmt i mp mp' (nm, rg)); auto; cbn [snd]; rewrite Erg; cbn [rstart rend fst snd].
        + rewrite <- (firstn_skipn a fmt) at 2. rewrite P_Demo.byte_len_app. lia.
        + rewrite <- (firstn_skipn b fmt) at 2. rewrite P_Demo.byte_len_app. lia.
    Qed.

    Lemma first_moved c cf i mp mp' : forall rs, (forall re, In re rs -> allows_margins re) ->
      (forall re caps, In re rs -> re c = Some caps -> forall nm rg, In (nm, Some rg) (skipn 1 caps) ->
         let q := convert_to_char_range c rg in inside c q -> rend q <= length input) ->
      (forall re caps, In re rs -> re cf = Some caps -> forall nm rg, In (nm, Some rg) (skipn 1 caps) ->
         let q := convert_to_char_range cf rg in inside cf q ->
         restore_range mp' (mvr q) = mvr (restore_range mp q) /\ rend (restore_range mp q) <= length input) ->
      first_match x dp (pad input) (pad c) (pad cf) i mp' rs = on_ok (option_map moved_result) (first_match x dp input c cf i mp rs).
    Proof.
      induction rs as [|re rs IH]; intros A H1 H2; auto. cbn [first_match].
      rewrite (matching_moved c re i None None); [|apply A; left; auto|].
      2: { intros caps E nm rg Hg q Hi. split; auto. apply (H1 re caps (or_introl eq_refl) E nm rg Hg Hi). }
      destruct (get_matching_result x dp input c re i None) as [[r|]| |]; auto. cbn [on_ok option_map bind].
      rewrite (matching_moved cf re i (Some mp) (Some mp')); [|apply A; left; auto|].
      2: { intros caps E nm rg Hg q Hi. apply (H2 re caps (or_introl eq_refl) E nm rg Hg Hi). }
      destruct (get_matching_result x dp input cf re i (Some mp)) as [[r|]| |]; auto. cbn [on_ok option_map bind].
      apply IH; intros; [apply A|eapply H1|eapply H2]; eauto; right; auto.
    Qed.

    Lemma match_intent_moved i sc : In (i, sc) (dp_scopes dp) ->
      match_intent x ord dp (pad input) i sc = on_ok (option_map moved_result) (match_intent x ord dp input i sc).
    Proof.
      intros Hsc. unfold match_intent. rewrite RB, RC.
      destruct (rs_builtin (dp_res dp) input (Some (fst sc)) true 0) as [bes| |] eqn:Eb; auto. cbn [on_ok bind].
      destruct (rs_custom (dp_res dp) input (Some (snd sc)) 0) as [ces| |] eqn:Ec; auto. cbn [on_ok bind].
      assert (Em : map matched_of_builtin (map (moved_entity n) bes) ++ map matched_of_custom (map (moved_custom n) ces)
                   = map (moved_matched n) (map matched_of_builtin bes ++ map matched_of_custom ces)).
      { rewrite map_app, !map_map. reflexivity. }
      rewrite Em. clear Em. set (es := map matched_of_builtin bes ++ map matched_of_custom ces) in *.
      assert (EF : entities_found (dp_res dp) input sc es) by (exists bes, ces; auto).
      assert (FO := found_ok x _ _ _ _ Bok Cok EF).
      pose proof (Short' i sc es Hsc EF) as Sh. destruct (replace_entities input es (get_entity_placeholder x)) as [mapping formatted] eqn:RE. cbn [snd] in Sh.
      rewrite (replace_moved _ _ _ _ FO RE Sh). rewrite !preprocess_moved.
      pose proof (pad_length n k input) as L1. pose proof (pad_length n k formatted) as L2.
      destruct (det_preprocess_blanked x dp input i (TO _ _)) as (c & E1 & [Lc _]). rewrite E1. cbn [on_ok bind].
      destruct (det_preprocess_blanked x dp formatted i (TO _ _)) as (cf & E2 & [Lcf _]). rewrite E2. cbn [on_ok bind].
      destruct (sget i (dp_regexes dp)) as [rs|] eqn:Er; auto. cbn [ok_or bind]. apply sget_In in Er.
      apply first_moved.
      - intros re Hre. eapply RM; eauto.
      - intros re caps Hre Ecaps nm rg Hg q [_ Hi]. lia.
      - intros re caps Hre Ecaps nm rg Hg q [Hi1 Hi2].
        destruct (replaced input es _ mapping formatted FO ltac:(lia) RE ltac:(lia)) as (Emap & Efmt & OK & NE).
        destruct (edit_positions_sorted _ _ 0 0 OK NE) as [Srt Bd]. rewrite <- Emap in Srt, Bd.
        destruct (mapping_designates input es _ mapping formatted FO ltac:(lia) RE ltac:(lia)) as [D _].
        assert (Bd' : forall a b, In (a, b) (reorder ord mapping) -> 0 < rend a /\ (Z.of_nat (rend a) < 65536)%Z /\ (Z.of_nat (rend b) < 65536)%Z).
        { intros a b Hab. apply reorder_In in Hab. pose proof (Bd a b Hab). destruct (D a b Hab) as (e & He & <- & W & _).
          destruct (FO e He) as [W' _]. unfold wf_range in *. lia. }
        split.
        + apply restore_moved; auto; try lia.
          * eapply perm_trans; [apply Permutation_map, Permutation_sym, reorder_perm|apply reorder_perm].
          * eapply Permutation_NoDup; [apply Permutation_map, reorder_perm|]. rewrite Emap. eapply edit_positions_NoDup; eauto.
          * intros a b a' b' H H' E. rewrite reorder_In in H, H'. eapply (sorted_unique mapping Srt); eauto. intros a1 v1 H1. apply Bd in H1. lia.
        + destruct (PA i sc rs re es mapping formatted cf Hsc Er Hre EF RE E2 caps Ecaps nm rg Hg) as [Hk|Hk]; cbv zeta in Hk; fold q in Hk.
          * apply in_map_iff in Hk as ([a v] & Ek & Hk). cbn [fst] in Ek. subst a.
            rewrite (restore_placeholder_spec input es _ mapping formatted ord q v FO ltac:(lia) RE ltac:(lia) Hk).
            destruct (D q v Hk) as (e & He & <- & _). destruct (FO e He) as [W _]. unfold wf_range in W. lia.
          * destruct (restore_outside_spec input es _ mapping formatted ord q FO ltac:(lia) RE ltac:(lia) Hi1 ltac:(lia)) as (_ & R2 & _); auto.
            intros a v Hav. apply Hk. apply (in_map fst) in Hav. exact Hav.
    Qed.

    Lemma present_moved (o : list (option InternalParsingResult)) :
      filter_map (fun o => o) (map (option_map moved_result) o) = map moved_result (filter_map (fun o => o) o).
    Proof. induction o as [|[r|] o IH]; simpl; auto. f_equal. exact IH. Qed.
    Lemma det_matches_moved wl : det_matches x ord dp (pad input) wl = on_ok (map moved_result) (det_matches x ord dp input wl).
    Proof.
      unfold det_matches. rewrite (mapM_moved (option_map moved_result) (fun e => match_intent x ord dp input (fst e) (snd e))).
      - destruct (mapM _ _); auto. cbn [on_ok bind]. rewrite present_moved. reflexivity.
      - intros [i sc] He. apply match_intent_moved. unfold considered in He. apply filter_In in He as [He _]. exact He.
    Qed.
  End Det.

  (** ** Ranking *)
  Lemma weight_moved r : result_weight (moved_result r) = result_weight r.
  Proof. unfold result_weight. cbn [moved_result pr_slots]. rewrite map_length. reflexivity. Qed.
  Lemma rank_moved m ms : rank_results m (map moved_result ms) = on_ok (map moved_result) (rank_results m ms).
  Proof.
    apply mv_out with (g := map moved_result). unfold rank_results.
    assert (Et : map result_weight (map moved_result ms) = map result_weight ms) by (rewrite map_map; apply map_ext, weight_moved).
    rewrite Et. clear Et. set (t := fsum _).
    eapply out_bind with (R := Forall2 (mv moved_result)).
    - apply sort_desc_rel; [intros a a' ->; reflexivity|]. apply mv_map. rewrite !map_map. apply map_ext. intros r. rewrite weight_moved. reflexivity.
    - intros a a' F. simpl. apply mv_map. apply firstn_rel. exact F.
  Qed.
  Lemma answer_moved t : answer_of (map moved_result t) = moved_result (answer_of t).
  Proof. destruct t as [|r t]; simpl; auto. destruct (fle _ _); reflexivity. Qed.

  Section DetCalls.
    Context (dp : DetParser) (ord : HashOrder) (input : str).
    Hypothesis M : forall wl, det_matches x ord dp (pad input) wl = on_ok (map moved_result) (det_matches x ord dp input wl).
    Lemma det_parse_moved wl : det_parse x ord dp (pad input) wl = on_ok moved_result (det_parse x ord dp input wl).
    Proof.
      unfold det_parse, det_parse_top. rewrite M. destruct (det_matches x ord dp input wl); auto. cbn [on_ok bind].
      rewrite rank_moved. destruct (rank_results 1 a); auto. cbn [on_ok bind]. rewrite answer_moved. reflexivity.
    Qed.
    Lemma det_intents_moved : det_get_intents x ord dp (pad input) = det_get_intents x ord dp input.
    Proof.
      unfold det_get_intents, det_parse_top. rewrite M. destruct (det_matches x ord dp input None); auto. cbn [on_ok bind].
      rewrite rank_moved. destruct (rank_results _ a); auto. cbn [on_ok bind]. rewrite map_map. reflexivity.
    Qed.
    Lemma det_slots_moved i : det_get_slots x ord dp (pad input) i = on_ok (map (moved_internal n)) (det_get_slots x ord dp input i).
    Proof.
      unfold det_get_slots. destruct (smem _ _); auto. rewrite det_parse_moved. destruct (det_parse x ord dp input _); reflexivity.
    Qed.
  End DetCalls.

  (** ** Lookup table *)
  Definition moved_candidate (c : candidate) : candidate := (fst c, map (moved_matched n) (snd c)).
  Lemma moved_me_eqb a b : me_eqb (moved_matched n a) (moved_matched n b) = me_eqb a b.
  Proof. unfold me_eqb. cbn [moved_matched me_range me_name]. rewrite moved_eqb. reflexivity. Qed.
  Lemma moved_list_eqb : forall a b, list_eqb me_eqb (map (moved_matched n) a) (map (moved_matched n) b) = list_eqb me_eqb a b.
  Proof. induction a as [|c a IH]; intros [|d b]; simpl; auto. rewrite moved_me_eqb, IH. reflexivity. Qed.
  Lemma moved_candidate_eqb a b : candidate_eqb (moved_candidate a) (moved_candidate b) = candidate_eqb a b.
  Proof. unfold candidate_eqb. cbn [moved_candidate fst snd]. rewrite moved_list_eqb. reflexivity. Qed.
  Lemma unique_moved l : unique candidate_eqb (map moved_candidate l) = map moved_candidate (unique candidate_eqb l).
  Proof.
    unfold unique. change (@nil candidate) with (map moved_candidate []) at 1. generalize (@nil candidate) as seen.
    induction l as [|c l IH]; intros seen; auto. cbn [map unique_aux].
    assert (E : memb candidate_eqb (moved_candidate c) (map moved_candidate seen) = memb candidate_eqb c seen).
    { unfold memb. induction seen as [|d seen IHs]; auto. simpl. rewrite moved_candidate_eqb, IHs. reflexivity. }
    rewrite E. destruct (memb candidate_eqb c seen); [apply IH|]. cbn [map]. f_equal. rewrite <- IH. reflexivity.
  Qed.
  Lemma combinations_map {A B} (g : A -> B) : forall m l, combinations m (map g l) = map (map g) (combinations m l).
  Proof.
    induction m as [|m IHm]; intros l; [destruct l; reflexivity|]. induction l as [|a l IHl]; auto. cbn [map].
    change (combinations (Datatypes.S m) (g a :: map g l)) with (map (cons (g a)) (combinations m (map g l)) ++ combinations (Datatypes.S m) (map g l)).
    change (combinations (Datatypes.S m) (a :: l)) with (map (cons a) (combinations m l) ++ combinations (Datatypes.S m) l).
    rewrite IHl, IHm, map_app, !map_map. reflexivity.
  Qed.
  Lemma items_map {A B} (g : A -> B) l : get_items_combinations (map g l) = map (map g) (get_items_combinations l).
  Proof.
    unfold get_items_combinations. rewrite map_length. cbn [map]. f_equal. induction (rev (seq 1 (length l))) as [|m ms IH]; auto.
    cbn [flat_map]. rewrite map_app, IH, combinations_map. reflexivity.
  Qed.
  Lemma flat_map_moved {A B} (g : A -> A) (h : B -> B) (f f' : A -> list B) l : (forall a, In a l -> f' (g a) = map h (f a)) ->
    flat_map f' (map g l) = map h (flat_map f l).
  Proof.
    induction l as [|a l IH]; intros H; auto. cbn [map flat_map]. rewrite map_app, H by (left; auto). rewrite IH by (intros; apply H; right; auto). reflexivity.
  Qed.

  Section Lookup.
    Context (lp : LookupParser) (ord : HashOrder) (input : str).
    Hypothesis RB : forall kinds c m, rs_builtin (lp_res lp) (pad input) kinds c m = on_ok (map (moved_entity n)) (rs_builtin (lp_res lp) input kinds c m).
    Hypothesis RC : forall kinds m, rs_custom (lp_res lp) (pad input) kinds m = on_ok (map (moved_custom n)) (rs_custom (lp_res lp) input kinds m).
    Hypothesis Bok : builtin_parser_ok (rs_builtin (lp_res lp)) input.
    Hypothesis Cok : custom_parser_ok (rs_custom (lp_res lp)) input.

    Lemma all_entities_moved sc : get_all_entities x lp (pad input) sc = on_ok (map (moved_matched n)) (get_all_entities x lp input sc).
    Proof.
      unfold get_all_entities. destruct (mapM _ _) as [kinds| |]; auto. cbn [bind]. rewrite RB. destruct (rs_builtin _ _ _ _ _) as [bes| |]; auto. cbn [on_ok bind].
      rewrite RC. destruct (rs_custom _ _ _ _) as [ces| |]; auto. cbn [on_ok bind]. rewrite <- dedup_moved. rewrite map_app, !map_map. reflexivity.
    Qed.
    Lemma all_entities_inside sc all : get_all_entities x lp input sc = Ok all -> forall es, subseq es all ->
      edits_ok (length input) 0 (edits_of (placeholder x) es) /\ forall e, In e es -> wf_range (length input) (me_range e).
    Proof.
      unfold get_all_entities. intros H es Hs. bind_inv H. bind_inv H. bind_inv H. injection H as <-.
      assert (W : forall e, In e es -> wf_range (length input) (me_range e)).
      { intros e He. apply (subseq_In _ _ _ Hs) in He. rewrite dedup_entities_resolve in He. apply resolve_In in He.
        destruct (found_ok x (lp_res lp) input (a, es_custom sc) (map matched_of_builtin a0 ++ map matched_of_custom a1) Bok Cok
                    (ex_intro _ a0 (ex_intro _ a1 (conj E0 (conj E1 eq_refl)))) e He) as [Wf _]. exact Wf. }
      split; [|exact W]. apply edits_ok_of_sorted; [lia|intros e He; split; [apply W; exact He|lia]|].
      eapply subseq_sorted; [exact Hs|]. rewrite dedup_entities_resolve. apply resolve_free.
    Qed.
    Lemma processed_moved es i : edits_ok (length input) 0 (edits_of (placeholder x) es) ->
      lookup_preprocess x lp (replace_entities_with_placeholders x (pad input) (map (moved_matched n) es)) i
      = lookup_preprocess x lp (replace_entities_with_placeholders x input es) i.
    Proof.
      intros OK. rewrite !with_placeholders_eq. unfold with_placeholders.
      change (map (fun e => (me_range e, placeholder x (me_name e))) (map (moved_matched n) es)) with (edits_of (placeholder x) (map (moved_matched n) es)).
      rewrite edits_moved, (apply_moved_0 n k _ _ OK). unfold lookup_preprocess. rewrite HW. reflexivity.
    Qed.
    Lemma candidates_moved wl : get_candidates x lp (pad input) wl = on_ok (map moved_candidate) (get_candidates x lp input wl).
    Proof.
      unfold get_candidates. rewrite (mapM_moved (map moved_candidate) (group_candidates x lp input wl)).
      - destruct (mapM _ _) as [ls| |]; auto. cbn [on_ok bind]. rewrite <- unique_moved, concat_map. reflexivity.
      - intros g _. unfold group_candidates. destruct (allowed_group wl (gs_intents g)) as [|a gr]; auto.
        rewrite all_entities_moved. destruct (get_all_entities x lp input (gs_scope g)) as [all| |] eqn:Ea; auto. cbn [on_ok bind].
        f_equal. rewrite items_map. apply flat_map_moved. intros es Hes. cbv zeta. apply items_combinations_In in Hes.
        destruct (all_entities_inside _ _ Ea es Hes) as [OK _]. generalize (a :: gr) as is. induction is as [|i is IH]; auto.
        cbn [flat_map]. rewrite map_app, <- IH. cbn [map]. rewrite (processed_moved es i OK). unfold moved_candidate at 1 2. cbn [fst snd map].
        replace (lookup_preprocess x lp (pad input) i) with (lookup_preprocess x lp input i); [reflexivity|].
        unfold lookup_preprocess. rewrite HW. reflexivity.
    Qed.
    Lemma candidate_moved wl c : (forall e, In e (snd c) -> rend (me_range e) <= length input) ->
      lookup_candidate x lp (pad input) wl (moved_candidate c) = on_ok (option_map moved_result) (lookup_candidate x lp input wl c).
    Proof.
      intros W. unfold lookup_candidate. cbn [moved_candidate fst snd]. destruct (hget _ _ _) as [out|]; auto. unfold parse_map_output.
      destruct (index_i32 _ (fst out)) as [i| |]; auto. cbn [bind]. destruct (match wl with Some _ => _ | None => _ end); auto.
      assert (Ec : combine (snd out) (map (moved_matched n) (snd c)) = map (fun se => (fst se, moved_matched n (snd se))) (combine (snd out) (snd c))).
      { generalize (snd c) as es. induction (snd out) as [|o os IH]; intros [|e es]; auto. cbn [combine map]. rewrite IH. reflexivity. }
      rewrite Ec, mapM_map.
      rewrite (mapM_moved (moved_internal n) (fun se => let* slot_name := index_i32 (lp_slots_names lp) (fst se) in
                 Ok (mkIS (substring input (me_range (snd se))) (me_range (snd se)) (me_name (snd se)) slot_name))).
      - destruct (mapM _ _); reflexivity.
      - intros [id e] He. cbn [fst snd]. destruct (index_i32 _ id); auto. cbn [bind on_ok moved_matched me_range me_name].
        apply in_combine_r in He. rewrite pad_substring by (apply W; exact He). reflexivity.
    Qed.
    Definition moved_results (g : str * list InternalParsingResult) := (fst g, map moved_result (snd g)).
    Lemma group_add_moved i r : forall m, group_add i (moved_result r) (map moved_results m) = map moved_results (group_add i r m).
    Proof.
      induction m as [|[i1 v] m IH]; auto. cbn [map moved_results fst snd group_add]. destruct (str_eqb i i1); cbn [map moved_results fst snd].
      - unfold moved_results at 2. cbn [fst snd]. rewrite map_app. reflexivity.
      - f_equal. exact IH.
    Qed.
    Lemma group_moved rs : group_results (map moved_result rs) = map moved_results (group_results rs).
    Proof.
      unfold group_results. change (@nil (str * list InternalParsingResult)) with (map moved_results []) at 1.
      generalize (@nil (str * list InternalParsingResult)) as m. induction rs as [|r rs IH]; intros m; auto. cbn [map fold_left].
      rewrite <- IH. f_equal. cbn [moved_result pr_intent]. destruct (ir_name _); auto. rewrite group_add_moved. reflexivity.
    Qed.
    Lemma last_max_moved rs : last_max (map moved_result rs) = option_map moved_result (last_max rs).
    Proof.
      unfold last_max. change (@None InternalParsingResult) with (option_map moved_result None) at 1.
      generalize (@None InternalParsingResult) as m. induction rs as [|r rs IH]; intros m; auto. cbn [map fold_left].
      rewrite <- IH. f_equal. destruct m as [b|]; auto. cbn [option_map]. rewrite !weight_moved. destruct (fle _ _); reflexivity.
    Qed.
    Lemma lookup_matches_moved wl : same_out (fun ms ms' => Permutation (map moved_result ms) ms')
      (lookup_matches x ord lp input wl) (lookup_matches x ord lp (pad input) wl).
    Proof.
      unfold lookup_matches. rewrite candidates_moved. destruct (get_candidates x lp input wl) as [cs| |] eqn:Ec; [|reflexivity|exact Logic.I]. cbn [on_ok bind].
      rewrite mapM_map. rewrite (mapM_moved (option_map moved_result) (lookup_candidate x lp input wl) (fun a => lookup_candidate x lp (pad input) wl (moved_candidate a))).
      - destruct (mapM _ _) as [o| |]; [|reflexivity|exact Logic.I]. cbn [on_ok bind same_out]. rewrite present_moved, group_moved.
        set (g := group_results _). 
        eapply perm_trans; [|apply filter_map_perm; apply reorder_perm].
        eapply perm_trans; [apply Permutation_map, filter_map_perm, Permutation_sym, reorder_perm|].
        clear. induction g as [|[i rs] g IH]; auto. cbn [map filter_map moved_results fst snd]. rewrite last_max_moved.
        destruct (last_max rs); cbn [option_map map]; auto.
      - intros c Hc. apply candidate_moved. intros e He.
        destruct (get_candidates_entities _ _ _ _ _ _ Ec Hc) as (g & all & _ & Ha & Sq).
        destruct (all_entities_inside _ _ Ha _ Sq) as [_ W]. destruct (W e He) as [_ W2]. exact W2.
    Qed.
    Lemma countable_moved ms : countable ms -> countable (map moved_result ms).
    Proof. intros C r Hr. apply in_map_iff in Hr as (r0 & <- & H0). specialize (C r0 H0). unfold slot_count in *. cbn [moved_result pr_slots]. rewrite map_length. exact C. Qed.
    Lemma lookup_parse_moved wl : (forall ms, lookup_matches x ord lp input wl = Ok ms -> countable ms /\ length ms <= 2) ->
      lookup_parse x ord lp (pad input) wl = on_ok moved_result (lookup_parse x ord lp input wl).
    Proof.
      intros H. pose proof (lookup_matches_moved wl) as M. unfold lookup_parse, lookup_parse_top.
      destruct (lookup_matches x ord lp input wl) as [ms| |], (lookup_matches x ord lp (pad input) wl) as [ms'| |]; cbn [same_out bind] in *; auto; try contradiction; [|subst; reflexivity].
      destruct (H ms eq_refl) as [C L2]. pose proof (countable_moved ms C) as Ck.
      assert (Lk : length (map moved_result ms) <= 2) by (rewrite map_length; exact L2).
      pose proof (short_perm _ ms' M Ck Lk) as B. rewrite rank_moved in B.
      destruct (rank_rule ms C) as (t & Et & _). rewrite Et in *. cbn [bind on_ok] in *.
      destruct (let* tops := rank_results 1 ms' in Ok (answer_of tops)); cbn [both] in B; try contradiction. subst a. rewrite answer_moved. reflexivity.
    Qed.
    Lemma lookup_slots_moved i : (forall ms, lookup_matches x ord lp input (Some [i]) = Ok ms -> countable ms /\ length ms <= 2) ->
      lookup_get_slots x ord lp (pad input) i = on_ok (map (moved_internal n)) (lookup_get_slots x ord lp input i).
    Proof.
      intros H. unfold lookup_get_slots. destruct (smem _ _); auto. rewrite (lookup_parse_moved _ H). destruct (lookup_parse x ord lp input _); reflexivity.
    Qed.
  End Lookup.
End Pad.
