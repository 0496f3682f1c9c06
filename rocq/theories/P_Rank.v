(** Proofs about the scores of the rule based parsers. *)
From Coq Require Import List ZArith Bool Lia Reals Lra Permutation Sorted Arith.
From Flocq Require Import Core.Core IEEE754.BinarySingleNaN.
From Verif Require Import Base Sorting F32 M_Types M_Utils M_Engine M_Det S_Base S_Rank
  P_Base P_F32 P_Engine P_Utils.
Import ListNotations.
Open Scope R_scope.

(** ** Weights *)
Lemma format_double x : format x -> format (2 * x).
Proof.
  intros H. apply FLT_format_generic in H; [|reflexivity]. destruct H as [[m e] H1 H2 H3].
  apply format_FLT. exists (Float radix2 m (e + 1)).
  - rewrite H1. unfold F2R. simpl Fnum. simpl Fexp. rewrite bpow_plus. simpl (bpow radix2 1). lra.
  - exact H2.
  - unfold SpecFloat.emin in *. simpl in *. lia.
Qed.

Lemma format_1 : format 1.
Proof. apply (format_IZR 1). lia. Qed.

Lemma rnd_nonneg x : 0 <= x -> 0 <= rnd x.
Proof. intros H. rewrite <- rnd_0. apply rnd_le. exact H. Qed.

Lemma IZR_le_bpow n e : (0 <= e)%Z -> (n <= 2 ^ e)%Z -> IZR n <= bpow radix2 e.
Proof. intros He H. rewrite <- IZR_Zpower by auto. apply IZR_le. exact H. Qed.

Definition fitting (n : nat) : Prop := (Z.of_nat n < 2 ^ 64)%Z.

Lemma count_R n : fitting n ->
  B2R (f32_of_nat n) = rnd (IZR (Z.of_nat n)) /\ is_finite (f32_of_nat n) = true /\
  0 <= B2R (f32_of_nat n) <= bpow radix2 64.
Proof.
  intros H. unfold fitting in H.
  assert (B : 0 <= rnd (IZR (Z.of_nat n)) <= bpow radix2 64).
  { split.
    - apply rnd_nonneg. apply IZR_le. lia.
    - apply rnd_le_format; [apply format_bpow; lia|]. apply IZR_le_bpow; lia. }
  destruct (of_Z_correct (Z.of_nat n)) as [E F].
  { rewrite Rabs_pos_eq by lra. eapply Rle_lt_trans; [apply B|]. apply bpow_lt. lia. }
  unfold f32_of_nat. rewrite E. auto.
Qed.

Lemma denom_R n : fitting n ->
  B2R (fadd f1 (f32_of_nat n)) = rnd (1 + rnd (IZR (Z.of_nat n))) /\
  is_finite (fadd f1 (f32_of_nat n)) = true /\
  1 <= B2R (fadd f1 (f32_of_nat n)) <= bpow radix2 65.
Proof.
  intros H. destruct (count_R n H) as (E & F & B). rewrite E in B.
  assert (B' : 1 <= rnd (1 + rnd (IZR (Z.of_nat n))) <= bpow radix2 65).
  { split.
    - apply rnd_ge_format; [apply format_1|lra].
    - apply rnd_le_format; [apply format_bpow; lia|].
      change 65%Z with (1 + 64)%Z. rewrite bpow_plus. simpl (bpow radix2 1).
      assert (1 <= bpow radix2 64) by (apply (bpow_le radix2 0 64); lia). lra. }
  destruct (fadd_correct f1 (f32_of_nat n)) as [E' F']; auto.
  { rewrite f1_R, E. rewrite Rabs_pos_eq by lra. eapply Rle_lt_trans; [apply B'|]. apply bpow_lt. lia. }
  rewrite f1_R, E in E'. rewrite E'. auto.
Qed.

Lemma weight_R n : fitting n ->
  is_finite (weight n) = true /\ bpow radix2 (-65) <= B2R (weight n) <= 1 /\
  B2R (weight n) = rnd (1 / rnd (1 + rnd (IZR (Z.of_nat n)))).
Proof.
  intros H. destruct (denom_R n H) as (E & F & B). set (d := fadd f1 (f32_of_nat n)) in *.
  assert (P65 := bpow_gt_0 radix2 65).
  assert (B' : bpow radix2 (-65) <= rnd (1 / B2R d) <= 1).
  { split.
    - apply rnd_ge_format; [apply format_bpow; lia|]. change (-65)%Z with (- (65))%Z. rewrite bpow_opp.
      unfold Rdiv. rewrite Rmult_1_l. apply Rinv_le; lra.
    - apply rnd_le_format; [apply format_1|]. unfold Rdiv. rewrite Rmult_1_l.
      rewrite <- Rinv_1. apply Rinv_le; lra. }
  destruct (fdiv_correct f1 d) as [E' F']; auto; [lra| |].
  { rewrite f1_R. rewrite Rabs_pos_eq.
    - eapply Rle_lt_trans; [apply B'|]. apply (bpow_lt radix2 0 128). lia.
    - assert (0 < bpow radix2 (-65)) by apply bpow_gt_0. lra. }
  unfold weight. fold d. rewrite f1_R in E'. rewrite E'. rewrite E at 3. auto.
Qed.

Lemma weight_antitone n m : fitting m -> (n <= m)%nat -> B2R (weight m) <= B2R (weight n).
Proof.
  intros Hm L. assert (Hn : fitting n) by (unfold fitting in *; lia).
  destruct (weight_R n Hn) as (_ & _ & En), (weight_R m Hm) as (_ & _ & Em). rewrite En, Em.
  destruct (denom_R n Hn) as (E & _ & B). rewrite E in B.
  apply rnd_le. unfold Rdiv. rewrite !Rmult_1_l. apply Rinv_le; [lra|].
  apply rnd_le. apply Rplus_le_compat_l. apply rnd_le. apply IZR_le. lia.
Qed.

(** ** Sums *)
(** The bound that running sums of numbers of (0,1] never exceed: adding 1 to 2^25
    gives 2^25 back. *)
Lemma saturation : rnd (bpow radix2 25 + 1) = bpow radix2 25.
Proof.
  set (big := f32_of_Z (2 ^ 25)).
  assert (Eb : B2R big = bpow radix2 25).
  { destruct (of_Z_correct (2 ^ 25)) as [E _].
    - rewrite (IZR_Zpower radix2) by lia. rewrite rnd_format by (apply format_bpow; lia).
      rewrite Rabs_pos_eq by (apply bpow_ge_0). apply bpow_lt. lia.
    - unfold big. rewrite E, (IZR_Zpower radix2) by lia. apply rnd_format. apply format_bpow. lia. }
  assert (B : rnd (bpow radix2 25 + 1) <= bpow radix2 26).
  { apply rnd_le_format; [apply format_bpow; lia|]. change 26%Z with (1 + 25)%Z. rewrite bpow_plus.
    simpl (bpow radix2 1). assert (1 <= bpow radix2 25) by (apply (bpow_le radix2 0 25); lia). lra. }
  destruct (fadd_correct big f1) as [E _]; auto.
  - rewrite Eb, f1_R. rewrite Rabs_pos_eq.
    + eapply Rle_lt_trans; [apply B|]. apply bpow_lt. lia.
    + apply rnd_nonneg. assert (H := bpow_ge_0 radix2 25). lra.
  - rewrite Eb, f1_R in E. rewrite <- E, <- Eb.
    assert (C : feq (fadd big f1) big = true) by (vm_compute; reflexivity).
    unfold feq in C. rewrite Beqb_correct in C; auto.
Qed.

Definition unit_range (w : f32) : Prop := is_finite w = true /\ 0 <= B2R w <= 1.

Lemma add_step acc w :
  is_finite acc = true -> 0 <= B2R acc <= bpow radix2 25 -> unit_range w ->
  is_finite (fadd acc w) = true /\ B2R (fadd acc w) = rnd (B2R acc + B2R w) /\
  0 <= B2R (fadd acc w) <= bpow radix2 25 /\
  B2R acc <= B2R (fadd acc w) /\ B2R w <= B2R (fadd acc w).
Proof.
  intros Fa Ba [Fw Bw].
  assert (B : 0 <= rnd (B2R acc + B2R w) <= bpow radix2 25).
  { split; [apply rnd_nonneg; lra|]. rewrite <- saturation. apply rnd_le. lra. }
  destruct (fadd_correct acc w) as [E F]; auto.
  { rewrite Rabs_pos_eq by lra. eapply Rle_lt_trans; [apply B|]. apply bpow_lt. lia. }
  split; auto. split; auto. rewrite E. split; auto.
  split; apply rnd_ge_format; try apply format_B2R; lra.
Qed.

Lemma sum_fold l : forall acc,
  is_finite acc = true -> 0 <= B2R acc <= bpow radix2 25 -> Forall unit_range l ->
  let s := fold_left fadd l acc in
  is_finite s = true /\ B2R acc <= B2R s <= bpow radix2 25 /\
  (forall w, In w l -> B2R w <= B2R s) /\
  (forall w m, In w l -> m <= B2R acc -> m <= B2R w -> format m -> 2 * m <= B2R s) /\
  (forall i j a b m, (i < j)%nat -> nth_error l i = Some a -> nth_error l j = Some b ->
     m <= B2R a -> m <= B2R b -> format m -> 2 * m <= B2R s).
Proof.
  induction l as [|w l IH]; intros acc Fa Ba U; cbv zeta; cbn [fold_left].
  - split; auto. split; [lra|]. split; [contradiction|]. split; [contradiction|].
    intros i j a b m _ H. destruct i; discriminate.
  - inv U. destruct (add_step acc w Fa Ba H1) as (F & E & B & G1 & G2).
    destruct (IH (fadd acc w) F B H2) as (S1 & S2 & S3 & S4 & S5).
    set (s := fold_left fadd l (fadd acc w)) in *.
    split; auto. split; [lra|]. split; [|split].
    + intros w' [<-|Hw]; [lra|auto].
    + intros w' m [<-|Hw] M1 M2 Fm.
      * assert (2 * m <= B2R (fadd acc w)); [|lra]. rewrite E. apply rnd_ge_format; [|lra].
        apply format_double. exact Fm.
      * eapply S4; eauto. lra.
    + intros i j a b m L Hi Hj Ma Mb Fm. destruct j as [|j]; [lia|]. destruct i as [|i]; simpl in *.
      * inv Hi. eapply S4; eauto; [eapply nth_error_In; eauto|lra].
      * eapply (S5 i j); eauto. lia.
Qed.

Section Shares.
  Context (ms : list InternalParsingResult) (C : countable ms).
  Let ws := map (fun m => weight (slot_count m)) ms.
  Let total := fsum ws.

  Lemma ws_unit : Forall unit_range ws.
  Proof.
    apply Forall_forall. intros w Hw. unfold ws in Hw. apply in_map_iff in Hw as (m & <- & Hm).
    destruct (weight_R (slot_count m) (C m Hm)) as (F & B & _). split; auto.
    assert (0 < bpow radix2 (-65)) by apply bpow_gt_0. lra.
  Qed.

  Lemma total_R : is_finite total = true /\ 0 <= B2R total <= bpow radix2 25.
  Proof.
    destruct (sum_fold ws f0 eq_refl) as (F & B & _); [rewrite f0_R; split; [lra|apply bpow_ge_0]|apply ws_unit|].
    rewrite f0_R in B. auto.
  Qed.

  Lemma total_ge m : In m ms -> B2R (weight (slot_count m)) <= B2R total.
  Proof.
    intros H. destruct (sum_fold ws f0 eq_refl) as (_ & _ & G & _);
      [rewrite f0_R; split; [lra|apply bpow_ge_0]|apply ws_unit|].
    apply G. unfold ws. apply (in_map (fun m => weight (slot_count m))). exact H.
  Qed.

  Lemma share_R m : In m ms ->
    is_finite (share ms m) = true /\
    B2R (share ms m) = rnd (B2R (weight (slot_count m)) / B2R total) /\
    0 < B2R (share ms m) <= 1.
  Proof.
    intros Hm. destruct (weight_R (slot_count m) (C m Hm)) as (F & B & _).
    destruct total_R as [Ft Bt]. assert (G := total_ge m Hm).
    assert (P := bpow_gt_0 radix2 (-65)). assert (P25 := bpow_gt_0 radix2 25).
    set (w := B2R (weight (slot_count m))) in *.
    assert (BB : bpow radix2 (-90) <= rnd (w / B2R total) <= 1).
    { split.
      - apply rnd_ge_format; [apply format_bpow; lia|].
        apply Rle_trans with (bpow radix2 (-65) / bpow radix2 25).
        + unfold Rdiv. rewrite <- bpow_opp, <- bpow_plus. apply Rle_refl.
        + unfold Rdiv. apply Rmult_le_compat; try lra.
          * left. apply Rinv_0_lt_compat. lra.
          * apply Rinv_le; lra.
      - apply rnd_le_format; [apply format_1|]. apply Rmult_le_reg_r with (B2R total); [lra|].
        unfold Rdiv. rewrite Rmult_assoc, Rinv_l by lra. lra. }
    assert (P90 := bpow_gt_0 radix2 (-90)).
    destruct (fdiv_correct (weight (slot_count m)) total) as [E F']; auto; [lra| |].
    { fold w. rewrite Rabs_pos_eq by lra. eapply Rle_lt_trans; [apply BB|]. apply (bpow_lt radix2 0 128). lia. }
    unfold share. fold ws total. split; auto. split; auto. rewrite E. fold w. lra.
  Qed.

  Lemma share_mono a b : In a ms -> In b ms ->
    B2R (weight (slot_count a)) <= B2R (weight (slot_count b)) ->
    B2R (share ms a) <= B2R (share ms b).
  Proof.
    intros Ha Hb L. destruct (share_R a Ha) as (_ & Ea & _), (share_R b Hb) as (_ & Eb & _).
    rewrite Ea, Eb. apply rnd_le. unfold Rdiv. apply Rmult_le_compat_r; auto.
    left. apply Rinv_0_lt_compat. assert (G := total_ge a Ha).
    destruct (weight_R (slot_count a) (C a Ha)) as (_ & B & _).
    assert (0 < bpow radix2 (-65)) by apply bpow_gt_0. lra.
  Qed.

  Lemma half_format : format (/ 2).
  Proof. change (/ 2) with (bpow radix2 (-1)). apply format_bpow. lia. Qed.

  (** Two different matches: the one with the smaller weight has at most one half. *)
  Lemma share_half i j a b : i <> j -> nth_error ms i = Some a -> nth_error ms j = Some b ->
    B2R (weight (slot_count a)) <= B2R (weight (slot_count b)) ->
    B2R (share ms a) <= / 2.
  Proof.
    intros N Hi Hj L. assert (Ha := nth_error_In _ _ Hi). assert (Hb := nth_error_In _ _ Hj).
    destruct (share_R a Ha) as (_ & Ea & _). rewrite Ea. apply rnd_le_format; [apply half_format|].
    destruct (weight_R (slot_count a) (C a Ha)) as (_ & B & _).
    assert (P := bpow_gt_0 radix2 (-65)). set (w := B2R (weight (slot_count a))) in *.
    assert (T : 2 * w <= B2R total).
    { destruct (sum_fold ws f0 eq_refl) as (_ & _ & _ & _ & G);
        [rewrite f0_R; split; [lra|apply bpow_ge_0]|apply ws_unit|].
      assert (Wi : nth_error ws i = Some (weight (slot_count a))) by (unfold ws; rewrite nth_error_map, Hi; reflexivity).
      assert (Wj : nth_error ws j = Some (weight (slot_count b))) by (unfold ws; rewrite nth_error_map, Hj; reflexivity).
      assert (Fm : format w) by apply format_B2R.
      destruct (Nat.lt_trichotomy i j) as [Lt|[Eq|Lt]]; [|lia|].
      - eapply (G i j); eauto. unfold w. lra.
      - eapply (G j i); eauto. unfold w. lra. }
    apply Rmult_le_reg_r with (B2R total); [lra|]. unfold Rdiv. rewrite Rmult_assoc, Rinv_l by lra. lra.
  Qed.

  Lemma share_pair i j a b : i <> j -> nth_error ms i = Some a -> nth_error ms j = Some b ->
    / 2 < B2R (share ms a) -> B2R (share ms b) <= / 2.
  Proof.
    intros N Hi Hj L. destruct (Rle_or_lt (B2R (weight (slot_count a))) (B2R (weight (slot_count b)))) as [H|H].
    - assert (B2R (share ms a) <= / 2) by (eapply (share_half i j); eauto). lra.
    - eapply (share_half j i); eauto. lra.
  Qed.
End Shares.

Lemma finite_eq (x y : f32) : is_finite x = true -> is_finite y = true -> B2R x <> 0 -> B2R x = B2R y -> x = y.
Proof.
  intros Fx Fy N E. apply B2R_inj; auto.
  - destruct x; simpl in *; try discriminate; auto.
  - destruct y; simpl in *; try discriminate; auto.
Qed.

Lemma share_single m : countable [m] -> share [m] m = f1.
Proof.
  intros C. destruct (share_R [m] C m (or_introl eq_refl)) as (F & E & B).
  symmetry. apply finite_eq; auto; rewrite f1_R; [lra|].
  assert (Hm : fitting (slot_count m)) by (apply C; left; auto).
  destruct (weight_R _ Hm) as (Fw & Bw & _). assert (P := bpow_gt_0 radix2 (-65)).
  rewrite E. cbn [map fsum fold_left].
  destruct (add_step f0 (weight (slot_count m)) eq_refl) as (_ & Ea & _).
  { rewrite f0_R. split; [lra|apply bpow_ge_0]. } { split; auto. lra. }
  unfold fsum. cbn [fold_left]. rewrite Ea, f0_R, Rplus_0_l. rewrite (rnd_format (B2R (weight (slot_count m)))) by apply format_B2R.
  unfold Rdiv. rewrite Rinv_r by lra. symmetry. apply rnd_format. apply format_1.
Qed.

(** ** Ranking *)
Lemma result_weight_eq m : result_weight m = weight (slot_count m).
Proof. reflexivity. Qed.

Lemma rank_scored top_n ms :
  rank_results top_n ms =
  let* sorted := sort_desc (fun r => ir_score (pr_intent r)) (map (scored ms) ms) in Ok (firstn top_n sorted).
Proof. reflexivity. Qed.

Lemma scored_finite ms : countable ms ->
  Forall (fun r => is_nan (ir_score (pr_intent r)) = false) (map (scored ms) ms).
Proof.
  intros C. apply Forall_forall. intros r Hr. apply in_map_iff in Hr as (m & <- & Hm).
  simpl. apply finite_not_nan. apply (share_R ms C m Hm).
Qed.

Lemma rank_ok top_n ms : countable ms ->
  exists sorted, rank_results top_n ms = Ok (firstn top_n sorted) /\
    Permutation (map (scored ms) ms) sorted /\
    StronglySorted (fun a b => fle (ir_score (pr_intent b)) (ir_score (pr_intent a)) = true) sorted.
Proof.
  intros C. rewrite rank_scored. rewrite sort_desc_no_nan by (apply scored_finite; auto). cbn [bind].
  eexists. split; [reflexivity|].
  assert (H := sort_desc_no_nan (fun r => ir_score (pr_intent r)) _ (scored_finite ms C)).
  apply sort_desc_ok in H as (P & _ & S). auto.
Qed.

Lemma rank_rule ms : countable ms ->
  exists tops, rank_results 1 ms = Ok tops /\ rule_answer ms (answer_of tops).
Proof.
  intros C. destruct (rank_ok 1 ms C) as (sorted & -> & P & S). exists (firstn 1 sorted). split; auto.
  destruct sorted as [|top rest].
  - left. split; [reflexivity|]. apply Permutation_sym, Permutation_nil in P.
    destruct ms; [contradiction|discriminate].
  - simpl. assert (Ht : In top (map (scored ms) ms)) by (eapply Permutation_in; [apply Permutation_sym; eauto|left; auto]).
    apply in_map_iff in Ht as (m & <- & Hm). cbn [scored pr_intent ir_score].
    inv S. rewrite Forall_forall in H2.
    destruct (share_R ms C m Hm) as (Fm & _ & Bm).
    assert (Max : forall m', In m' ms -> fle (share ms m') (share ms m) = true).
    { intros m' Hm'. assert (Hi : In (scored ms m') (scored ms m :: rest))
        by (eapply Permutation_in; [eauto|apply in_map; auto]).
      destruct Hi as [Eq|Hi].
      - apply (f_equal (fun r => ir_score (pr_intent r))) in Eq. simpl in Eq. rewrite Eq.
        apply fle_refl. apply finite_not_nan. rewrite <- Eq. exact Fm.
      - apply H2 in Hi. exact Hi. }
    destruct (fle (share ms m) fhalf) eqn:E.
    + left. split; auto. intros m' Hm'. eapply fle_trans; [apply Max; auto|exact E].
    + right. apply In_nth_error in Hm as [i Hi]. exists i, m. split; auto. split; auto.
      apply fle_R_false in E; auto. split; [apply flt_R; auto|].
      intros j m' N Hj. rewrite fhalf_R in E.
      destruct (share_R ms C m' (nth_error_In _ _ Hj)) as (Fm' & _ & _).
      apply fle_R; auto. rewrite fhalf_R. eapply (share_pair ms C i j); eauto.
Qed.

Lemma rule_answer_ambiguous ms i j a b r : countable ms ->
  i <> j -> nth_error ms i = Some a -> nth_error ms j = Some b ->
  slot_count a = slot_count b -> (forall m, In m ms -> (slot_count a <= slot_count m)%nat) ->
  rule_answer ms r -> r = no_intent.
Proof.
  intros C N Hi Hj E Min [[-> _]|(k & m & Hk & -> & L & _)]; auto. exfalso.
  destruct (share_R ms C m (nth_error_In _ _ Hk)) as (Fm & _ & _).
  apply flt_R in L; auto. rewrite fhalf_R in L.
  assert (Lm : B2R (weight (slot_count m)) <= B2R (weight (slot_count a))).
  { apply weight_antitone; [apply C; eapply nth_error_In; eauto|]. apply Min. eapply nth_error_In; eauto. }
  assert (H : B2R (share ms m) <= / 2); [|lra].
  destruct (Nat.eq_dec k i) as [->|Nk].
  - eapply (share_half ms C i j); eauto. rewrite <- E. exact Lm.
  - eapply (share_half ms C k i); eauto.
Qed.

(** ** Order of enumeration *)
Lemma fadd_comm2 a b : unit_range a -> unit_range b -> B2R a <> 0 ->
  fsum [a; b] = fsum [b; a].
Proof.
  intros Ua Ub Na. unfold fsum. cbn [fold_left].
  assert (Z0 : 0 <= B2R f0 <= bpow radix2 25) by (rewrite f0_R; split; [lra|apply bpow_ge_0]).
  destruct (add_step f0 a eq_refl Z0 Ua) as (F1 & E1 & B1 & _).
  destruct (add_step f0 b eq_refl Z0 Ub) as (F2 & E2 & B2 & _).
  destruct (add_step (fadd f0 a) b F1 B1 Ub) as (F3 & E3 & B3 & G3 & _).
  destruct (add_step (fadd f0 b) a F2 B2 Ua) as (F4 & E4 & B4 & _).
  rewrite f0_R, Rplus_0_l, rnd_format in E1, E2 by apply format_B2R.
  apply finite_eq; auto.
  - rewrite E1 in G3. destruct Ua as [_ Ua]. lra.
  - rewrite E3, E4, E1, E2, Rplus_comm. reflexivity.
Qed.

Lemma share_perm2 ms ms' m : countable ms -> (length ms <= 2)%nat -> Permutation ms ms' ->
  share ms m = share ms' m.
Proof.
  intros C L P. destruct ms as [|a [|b [|c ms]]]; simpl in L; try lia.
  - apply Permutation_nil in P. subst. reflexivity.
  - apply Permutation_length_1_inv in P. subst. reflexivity.
  - apply Permutation_length_2_inv in P as [->| ->]; auto.
    unfold share. f_equal. cbn [map].
    assert (Ua : forall m, In m [a; b] -> unit_range (weight (slot_count m)) /\ B2R (weight (slot_count m)) <> 0).
    { intros m0 Hm. destruct (weight_R _ (C m0 Hm)) as (F & B & _). assert (P := bpow_gt_0 radix2 (-65)).
      split; [split; auto|]; lra. }
    apply fadd_comm2; apply Ua; simpl; auto.
Qed.

Lemma rule_answer_unique ms r r' : countable ms -> rule_answer ms r -> rule_answer ms r' -> r = r'.
Proof.
  intros C [[-> H]|(i & m & Hi & -> & L & H)] [[-> H']|(i' & m' & Hi' & -> & L' & H')]; auto.
  - exfalso. specialize (H m' (nth_error_In _ _ Hi')).
    destruct (share_R ms C m' (nth_error_In _ _ Hi')) as (F & _). apply flt_R in L'; auto. apply fle_R in H; auto. lra.
  - exfalso. specialize (H' m (nth_error_In _ _ Hi)).
    destruct (share_R ms C m (nth_error_In _ _ Hi)) as (F & _). apply flt_R in L; auto. apply fle_R in H'; auto. lra.
  - destruct (Nat.eq_dec i i') as [->|N]; [congruence|]. exfalso.
    specialize (H i' m' (not_eq_sym N) Hi').
    destruct (share_R ms C m' (nth_error_In _ _ Hi')) as (F & _). apply flt_R in L'; auto. apply fle_R in H; auto. lra.
Qed.

Lemma rule_answer_perm ms ms' r : countable ms -> (length ms <= 2)%nat -> Permutation ms ms' ->
  rule_answer ms r -> rule_answer ms' r.
Proof.
  intros C L P R.
  assert (E : forall m, share ms m = share ms' m) by (intros; apply share_perm2; auto).
  destruct R as [[-> H]|(i & m & Hi & -> & Lt & H)].
  - left. split; auto. intros m Hm. rewrite <- E. apply H. eapply Permutation_in; [apply Permutation_sym|]; eauto.
  - right. assert (Es : scored ms m = scored ms' m) by (unfold scored; rewrite E; reflexivity). rewrite Es.
    destruct ms as [|a [|b [|c ms]]]; simpl in L; try lia.
    + destruct i; discriminate.
    + apply Permutation_length_1_inv in P. subst. exists i, m. repeat split; auto.
    + apply Permutation_length_2_inv in P as [->| ->].
      * exists i, m. repeat split; auto.
      * destruct i as [|[|i]]; simpl in Hi; try (destruct i; discriminate); inv Hi.
        -- exists 1%nat, m. rewrite <- E. repeat split; auto.
           intros [|[|j]] m' N Hj; simpl in Hj; try lia; [|destruct j; discriminate]. inv Hj.
           rewrite <- E. apply (H 1%nat); auto.
        -- exists 0%nat, m. rewrite <- E. repeat split; auto.
           intros [|[|j]] m' N Hj; simpl in Hj; try lia; [|destruct j; discriminate]. inv Hj.
           rewrite <- E. apply (H 0%nat); auto.
Qed.
