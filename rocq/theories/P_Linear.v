(** The logistic function is not decreasing in binary32, and it saturates. *)
From Coq Require Import ZArith List Bool Lia Reals Lra.
From Flocq Require Import Core.Core IEEE754.BinarySingleNaN.
From Verif Require Import Base Sorting F32 M_Types M_Prob S_Prob S_Linear P_Base P_F32 P_Logit P_Prob.
Import ListNotations.
Open Scope R_scope.

Lemma ext_max (x : f32) : is_nan x = false -> ext x <= bpow radix2 128.
Proof.
  intros N. assert (P := bpow128_pos). destruct (is_finite x) eqn:F.
  - rewrite ext_finite by exact F. assert (B := B2R_bound x). lra.
  - destruct x as [|[|]| |]; try discriminate; cbn [ext]; lra.
Qed.

Lemma one_plus_R (e : f32) : is_finite e = true -> 0 <= B2R e ->
  (rnd (1 + B2R e) < bpow radix2 128 /\ is_finite (fadd f1 e) = true /\ B2R (fadd f1 e) = rnd (1 + B2R e)) \/
  (bpow radix2 128 <= rnd (1 + B2R e) /\ fadd f1 e = B754_infinity false).
Proof.
  intros Fe H.
  assert (Ge : 1 <= rnd (1 + B2R e)) by (apply rnd_ge_format; [apply format_1|lra]).
  assert (C := Bplus_correct 24 128 _ _ mode_NE f1 e f1_finite Fe).
  simpl round_mode in C. fold (rnd (B2R f1 + B2R e)) in C. rewrite f1_R in C. rewrite (Rabs_pos_eq (rnd _)) in C by lra.
  destruct (Rlt_bool_spec (rnd (1 + B2R e)) (bpow radix2 128)) as [L|L].
  - destruct C as (C1 & C2 & _). left. unfold fadd. rewrite C1, C2. auto.
  - destruct C as (C1 & C2). right. split; [exact L|]. unfold fadd.
    destruct (Bplus mode_NE f1 e) as [s|s| |s m ex Hb]; try discriminate. destruct s; [discriminate|reflexivity].
Qed.

Lemma one_plus_le (a b : f32) : fle f0 a = true -> fle a b = true -> ext (fadd f1 a) <= ext (fadd f1 b).
Proof.
  intros H0 H. assert (Hb : fle f0 b = true) by exact (fle_trans _ _ _ H0 H).
  assert (Top : fadd f1 b = B754_infinity false -> ext (fadd f1 a) <= ext (fadd f1 b)).
  { intros ->. cbn [ext]. apply ext_max. destruct (one_plus a H0) as [->|[F _]]; [reflexivity|apply finite_not_nan, F]. }
  destruct (is_finite b) eqn:Fb.
  - assert (Fa : is_finite a = true).
    { destruct a as [|[|]| |]; auto; try discriminate. apply fle_ext in H; [|reflexivity|apply finite_not_nan, Fb].
      rewrite (ext_finite b Fb) in H. cbn [ext] in H. assert (B := B2R_bound b). lra. }
    assert (Ra : 0 <= B2R a) by (apply fle_R in H0; auto). apply fle_R in H; auto.
    destruct (one_plus_R b Fb ltac:(lra)) as [(Lb & Fb' & Eb)|[_ I]]; [|exact (Top I)].
    assert (M : rnd (1 + B2R a) <= rnd (1 + B2R b)) by (apply rnd_le; lra).
    destruct (one_plus_R a Fa Ra) as [(_ & Fa' & Ea)|[La _]]; [|lra].
    rewrite !ext_finite by assumption. lra.
  - apply Top. destruct b as [|[|]| |]; try discriminate. reflexivity.
Qed.

Lemma one_over_le (a b : f32) :
  (a = B754_infinity false \/ (is_finite a = true /\ 1 <= B2R a)) -> (b = B754_infinity false \/ (is_finite b = true /\ 1 <= B2R b)) ->
  ext a <= ext b -> fle (fdiv f1 b) (fdiv f1 a) = true.
Proof.
  intros Ha Hb H. destruct (one_over a Ha) as [Fa [La Ua]], (one_over b Hb) as [Fb [Lb Ub]].
  apply fle_R; auto. destruct Hb as [->|[Fib Hb]]; [exact La|].
  destruct Ha as [->|[Fia Ha]]; [rewrite (ext_finite b Fib) in H; cbn [ext] in H; assert (B := B2R_bound b); lra|].
  rewrite !ext_finite in H by assumption.
  assert (Q : forall d : f32, is_finite d = true -> 1 <= B2R d -> B2R (fdiv f1 d) = rnd (1 / B2R d)).
  { intros d Fd Hd. assert (0 <= 1 / B2R d <= 1).
    { split; [apply Rlt_le, Rdiv_lt_0_compat; lra|].
      apply (Rmult_le_reg_r (B2R d)); [lra|]. unfold Rdiv. rewrite Rmult_assoc, Rinv_l by lra. lra. }
    assert (0 <= rnd (1 / B2R d) <= 1).
    { split; [apply rnd_ge_format; [apply format_0|lra]|apply rnd_le_format; [apply format_1|lra]]. }
    destruct (fdiv_correct f1 d) as [E F]; auto; try (rewrite f1_R); try lra.
    - rewrite Rabs_pos_eq by lra. assert (K := bpow128_gt1). lra.
    - rewrite E, f1_R. reflexivity. }
  rewrite (Q a Fia Ha), (Q b Fib Hb). apply rnd_le. unfold Rdiv. apply Rmult_le_compat_l; [lra|]. apply Rinv_le; lra.
Qed.

Lemma fneg_le (v w : f32) : fle v w = true -> fle (fneg w) (fneg v) = true.
Proof.
  intros H. destruct (fle_not_nan _ _ H) as [Nv Nw].
  assert (E : forall z : f32, is_nan z = false -> is_nan (fneg z) = false /\ ext (fneg z) = - ext z).
  { intros z N. split; [destruct z; auto|]. destruct z as [s|[|]| |s m e Hb]; try discriminate; cbn [ext fneg Bopp negb].
    - cbn. lra.
    - lra.
    - reflexivity.
    - exact (B2R_Bopp 24 128 (B754_finite s m e Hb)). }
  destruct (E v Nv) as [N1 E1], (E w Nw) as [N2 E2]. apply fle_ext; auto. apply fle_ext in H; auto. lra.
Qed.

Lemma logistic_le mx v w : exp_ok mx -> exp_monotone mx -> fle v w = true -> fle (logistic mx v) (logistic mx w) = true.
Proof.
  intros X M H. destruct (fle_not_nan _ _ H) as [Nv Nw]. unfold logistic.
  assert (P : forall z : f32, is_nan z = false -> fle f0 (mx_exp mx (fneg z)) = true) by (intros z N; apply X; destruct z; auto).
  apply one_over_le; [apply one_plus, P, Nw|apply one_plus, P, Nv|]. apply one_plus_le; [apply P, Nw|]. apply M, fneg_le, H.
Qed.

(** ** The order of the classes *)
Lemma linear_order mx c input w t lr fs l : exp_ok mx -> exp_monotone mx ->
  scores_text c input -> cl_featurizer c = Some t -> cl_logreg c = Some lr -> t input = Ok fs -> lr_classes lr <> 1%nat ->
  get_intents_with_whitelist mx c input w = Ok l ->
  forall a b ra rb, (a < b)%nat -> nth_error l a = Some ra -> nth_error l b = Some rb ->
  exists ka kb, nth_error (cl_intents c) ka = Some (ir_name ra) /\ nth_error (cl_intents c) kb = Some (ir_name rb) /\ ka <> kb /\
    (fle (linear mx lr fs ka) (linear mx lr fs kb) = true -> feq (ir_score ra) (ir_score rb) = true /\ (ka < kb)%nat).
Proof.
  intros X M S Ht Hl Hf N H a b ra rb L Ha Hb. pose proof H as H'.
  rewrite (scored_unfold _ _ _ _ t lr S Ht Hl), Hf in H'. cbn [bind] in H'. bind_inv H'. rename a0 into scores.
  destruct (classifier_lists _ _ _ _ _ _ _ _ _ S Ht Hl Hf E H) as (ks & ND & _ & F & O).
  assert (K : forall n r, nth_error l n = Some r -> exists k, nth_error ks n = Some k /\ nth_error (cl_intents c) k = Some (ir_name r) /\
                nth_error scores k = Some (ir_score r)).
  { clear -F. induction F as [|k r ks l Hk F IH]; intros [|n] r' Hn; try discriminate.
    - injection Hn as <-. exists k. split; [reflexivity|exact Hk].
    - exact (IH n r' Hn). }
  destruct (K a ra Ha) as (ka & Ka & Ia & Sa), (K b rb Hb) as (kb & Kb & Ib & Sb). exists ka, kb.
  split; [exact Ia|]. split; [exact Ib|]. split.
  { intros <-. assert (EQ := proj1 (NoDup_nth_error ks) ND a b). rewrite Ka, Kb in EQ.
    specialize (EQ ltac:(apply nth_error_Some; rewrite Ka; discriminate) eq_refl). lia. }
  intros LL. destruct (O a b ka kb ra rb L Ka Kb Ha Hb) as [O1 O2].
  destruct (logreg_scores _ _ _ _ E) as [Sc _]. destruct (Sc N) as [Ln Sn].
  assert (La : (ka < lr_classes lr)%nat) by (rewrite <- Ln; apply nth_error_Some; rewrite Sa; discriminate).
  assert (Lb : (kb < lr_classes lr)%nat) by (rewrite <- Ln; apply nth_error_Some; rewrite Sb; discriminate).
  rewrite (Sn ka La) in Sa. rewrite (Sn kb Lb) in Sb. injection Sa as Sa. injection Sb as Sb.
  assert (O3 : fle (ir_score ra) (ir_score rb) = true) by (rewrite <- Sa, <- Sb; apply logistic_le; assumption).
  split; [|exact (O2 O3)].
  destruct (fle_not_nan _ _ O3) as [Na Nb]. apply fle_ext in O1, O3; auto.
  unfold feq, Beqb. pose proof (compare_ext _ _ Na Nb) as C. unfold SpecFloat.SFeqb. unfold Bcompare in C. rewrite C.
  rewrite Rcompare_Eq by lra. reflexivity.
Qed.

(** ** Two classes *)
Lemma half_format : format (/ 2).
Proof. rewrite <- fhalf_R. apply format_B2R. Qed.
Lemma fsub_one (v : f32) : in_unit v -> is_finite (fsub f1 v) = true /\ B2R (fsub f1 v) = rnd (1 - B2R v).
Proof.
  intros H. apply unit_R_inv in H as [F B].
  assert (C := Bminus_correct 24 128 _ _ mode_NE f1 v f1_finite F).
  simpl round_mode in C. fold (rnd (B2R f1 - B2R v)) in C. rewrite f1_R in C.
  assert (0 <= rnd (1 - B2R v) <= 1).
  { split; [apply rnd_ge_format; [apply format_0|lra]|apply rnd_le_format; [apply format_1|lra]]. }
  rewrite Rlt_bool_true in C.
  - destruct C as (C1 & C2 & _). auto.
  - rewrite Rabs_pos_eq by lra. assert (K := bpow128_gt1). lra.
Qed.
Lemma logistic_zero mx z : exp_zero mx -> fneg z = f0 -> B2R (logistic mx z) = / 2.
Proof. intros E Z. unfold logistic. rewrite Z, E. rewrite <- fhalf_R. f_equal. apply B2SF_inj. vm_compute. reflexivity. Qed.
Lemma binary_sides mx v : exp_ok mx -> exp_monotone mx -> exp_zero mx ->
  (fle f0 v = true -> fle (fsub f1 (logistic mx v)) (logistic mx v) = true) /\
  (fle v f0 = true -> fle (logistic mx v) (fsub f1 (logistic mx v)) = true).
Proof.
  intros X M Z. set (nz := B754_zero true : f32).
  assert (Hz : B2R (logistic mx nz) = / 2) by (apply logistic_zero; [exact Z|reflexivity]).
  assert (Un : in_unit (logistic mx nz)) by (apply logistic_unit; [exact X|reflexivity]). apply unit_R_inv in Un as [Fn _].
  assert (K : forall z : f32, fle v z = true \/ fle z v = true -> in_unit (logistic mx v)).
  { intros z [H|H]; apply logistic_unit; auto; apply fle_not_nan in H; apply H. }
  split; intros H.
  - assert (H' : fle nz v = true) by (apply (fle_trans nz f0 v); [reflexivity|exact H]).
    pose proof (K nz (or_intror H')) as U. destruct (fsub_one _ U) as [Fs Es]. apply unit_R_inv in U as [Fv Bv].
    pose proof (logistic_le _ _ _ X M H') as L. apply fle_R in L; auto. apply fle_R; auto. rewrite Es.
    apply Rle_trans with (/ 2); [|lra]. apply rnd_le_format; [apply half_format|lra].
  - assert (H' : fle v nz = true) by (apply (fle_trans v f0 nz); [exact H|reflexivity]).
    pose proof (K nz (or_introl H')) as U. destruct (fsub_one _ U) as [Fs Es]. apply unit_R_inv in U as [Fv Bv].
    pose proof (logistic_le _ _ _ X M H') as L. apply fle_R in L; auto. apply fle_R; auto. rewrite Es.
    apply Rle_trans with (/ 2); [lra|]. apply rnd_ge_format; [apply half_format|lra].
Qed.

(** ** Saturation *)
Lemma tiny_R : B2R tiny = bpow radix2 (-24).
Proof. unfold tiny. cbv -[Rmult Rinv IZR]. lra. Qed.
Lemma saturated_sum (e : f32) : fle f0 e = true -> fle e tiny = true -> fadd f1 e = f1.
Proof.
  intros H0 H. assert (Fe : is_finite e = true).
  { destruct e as [|[|]| |]; auto; try discriminate. }
  apply fle_R in H0; auto. apply fle_R in H; auto. rewrite f0_R in H0. rewrite tiny_R in H.
  assert (One : rnd (1 + B2R e) = 1).
  { apply Rle_antisym; [|apply rnd_ge_format; [apply format_1|lra]].
    apply Rle_trans with (rnd (1 + bpow radix2 (-24))); [apply rnd_le; lra|].
    apply Req_le.
    assert (T := Bplus_correct 24 128 _ _ mode_NE f1 tiny f1_finite eq_refl).
    simpl round_mode in T. fold (rnd (B2R f1 + B2R tiny)) in T. rewrite f1_R, tiny_R in T.
    assert (V : Bplus mode_NE f1 tiny = f1) by (apply B2SF_inj; vm_compute; reflexivity).
    assert (Bd : rnd (1 + bpow radix2 (-24)) <= 2).
    { apply rnd_le_format; [change 2 with (IZR 2); apply format_IZR; lia|]. assert (bpow radix2 (-24) <= bpow radix2 0) by (apply bpow_le; lia). simpl bpow in *. lra. }
    assert (Bp : 1 <= rnd (1 + bpow radix2 (-24))) by (apply rnd_ge_format; [apply format_1|assert (Y := bpow_gt_0 radix2 (-24)); lra]).
    rewrite Rlt_bool_true in T.
    - destruct T as (T1 & _). rewrite V, f1_R in T1. symmetry. exact T1.
    - rewrite Rabs_pos_eq by lra. apply Rle_lt_trans with 2; [exact Bd|]. change 2 with (bpow radix2 1). apply bpow_lt. lia. }
  destruct (one_plus_R e Fe H0) as [(_ & F & E)|[L _]].
  - rewrite One in E. apply B2R_inj; auto.
    + destruct (fadd f1 e) as [s|s| |s m x Hb]; try discriminate; [|reflexivity]. cbn in E. lra.
    + rewrite E, f1_R. reflexivity.
  - rewrite One in L. assert (K := bpow128_gt1). lra.
Qed.
Lemma saturated mx v : fle f0 (mx_exp mx (fneg v)) = true -> fle (mx_exp mx (fneg v)) tiny = true -> logistic mx v = f1.
Proof. intros H0 H. unfold logistic. rewrite (saturated_sum _ H0 H). apply B2SF_inj. vm_compute. reflexivity. Qed.
Lemma saturated_low mx v : mx_exp mx (fneg v) = B754_infinity false -> logistic mx v = f0.
Proof. intros H. unfold logistic. rewrite H. reflexivity. Qed.

(** The first saturated class, or a class before it, is the answer. *)
Lemma saturated_answer mx c input w t lr fs r : exp_ok mx ->
  scores_text c input -> cl_featurizer c = Some t -> cl_logreg c = Some lr -> t input = Ok fs -> lr_classes lr <> 1%nat ->
  (forall j, (j < lr_classes lr)%nat -> fis_nan (linear mx lr fs j) = false) ->
  cl_get_intent mx c input w = Ok r ->
  forall k i, (k < lr_classes lr)%nat -> nth_error (cl_intents c) k = Some i -> permitted w i ->
  fle (mx_exp mx (fneg (linear mx lr fs k))) tiny = true ->
  feq (ir_score r) f1 = true /\ exists k', (k' <= k)%nat /\ nth_error (cl_intents c) k' = Some (ir_name r).
Proof.
  intros X S Ht Hl Hf N NN H k i Lk Ik P T. unfold cl_get_intent in H. bind_inv H. rename E into Hg.
  pose proof Hg as H'. rewrite (scored_unfold _ _ _ _ t lr S Ht Hl), Hf in H'. cbn [bind] in H'. bind_inv H'. clear H'. rename a0 into scores.
  destruct (classifier_lists _ _ _ _ _ _ _ _ _ S Ht Hl Hf E Hg) as (ks & ND & Iff & F & O).
  destruct (logreg_scores _ _ _ _ E) as [Sc _]. destruct (Sc N) as [Ln Sn].
  assert (Sat : nth_error scores k = Some f1).
  { rewrite (Sn k Lk). f_equal. apply saturated; [|exact T]. apply X.
    pose proof (NN k Lk) as Q. unfold linear in Q. destruct (mx_cell mx (f1 :: fs) (lr_rows lr) k); auto. }
  assert (Ik' : In k ks) by (apply Iff; eauto).
  destruct ks as [|k0 ks]; [contradiction|]. inversion F as [|k1 r0 ks1 l1 [C0 S0] F']; subst. cbn iota in H. injection H as <-.
  assert (U : in_unit (ir_score r0)).
  { assert (L0 : (k0 < lr_classes lr)%nat) by (rewrite <- Ln; apply nth_error_Some; rewrite S0; discriminate).
    rewrite (Sn k0 L0) in S0. injection S0 as <-. apply logistic_unit; [exact X|apply NN, L0]. }
  destruct Ik' as [->|Ik'].
  - rewrite Sat in S0. injection S0 as <-. split; [vm_compute; reflexivity|]. exists k. split; [lia|exact C0].
  - apply In_nth_error in Ik' as (b & Hb).
    assert (Fb : exists rb, nth_error l1 b = Some rb /\ ir_score rb = f1).
    { clear -F' Hb Sat. revert b Hb. induction F' as [|k1 r1 ks1 l1 [_ S1] F IH]; intros [|b] Hb; try discriminate.
      - injection Hb as ->. exists r1. split; [reflexivity|]. rewrite Sat in S1. injection S1 as ->. reflexivity.
      - exact (IH b Hb). }
    destruct Fb as (rb & Rb & Sb).
    destruct (O 0%nat (Datatypes.S b) k0 k r0 rb ltac:(lia) eq_refl Hb eq_refl Rb) as [O1 O2]. rewrite Sb in O1, O2. destruct U as [_ U2].
    split; [|exists k0; split; [specialize (O2 U2); lia|exact C0]].
    destruct (fle_not_nan _ _ O1) as [Na Nb]. pose proof (compare_ext _ _ Nb Na) as C. apply fle_ext in O1, U2; auto.
    unfold feq, Beqb, SpecFloat.SFeqb. unfold Bcompare in C. rewrite C. rewrite Rcompare_Eq by lra. reflexivity.
Qed.

Lemma feq_not_nan (x y : f32) : feq x y = true -> is_nan x = false /\ is_nan y = false.
Proof. destruct x, y; cbn; auto; discriminate. Qed.
Lemma feq_strict (x y : f32) : feq x y = true -> is_finite_strict y = true -> x = y.
Proof.
  intros H S. destruct (feq_not_nan _ _ H) as [Nx Ny]. pose proof (compare_ext _ _ Nx Ny) as C.
  unfold feq, Beqb, SpecFloat.SFeqb in H. unfold Bcompare in C. rewrite C in H.
  destruct (Rcompare_spec (ext x) (ext y)) as [L|E|L]; try discriminate.
  assert (Fy : is_finite y = true) by (destruct y; auto; discriminate). rewrite (ext_finite y Fy) in E.
  assert (B := B2R_bound y). assert (Sx : is_finite_strict x = true).
  { destruct x as [s|[|]| |s m e Hb]; cbn [ext] in E; try discriminate; try reflexivity; try lra.
    exfalso. cbn in E. destruct y as [|[|]| |s' m' e' Hb']; try discriminate. destruct s'; discriminate C. }
  apply B2R_inj; auto. rewrite <- E. symmetry. apply ext_finite. destruct x; auto; discriminate.
Qed.
Lemma smaller_wins mx a b input : exp_ok mx -> cell_of_one mx ->
  fle (mx_exp mx (f32_of_Z (-17))) tiny = true -> input <> [] ->
  exists lr r, logreg_new [f32_of_Z 17; f32_of_Z 100; f0] [[]; []; []] = Ok lr /\
    cl_get_intent mx (flat_classifier lr a b) input None = Ok r /\ ir_name r = Some a /\ feq (ir_score r) f1 = true /\
    flt (linear mx lr [] 0) (linear mx lr [] 1) = true.
Proof.
  intros X C T NE. set (row := [f32_of_Z 17; f32_of_Z 100; f0]). exists (mkLR 3 [row]).
  assert (L : forall j v, nth_error row j = Some v -> is_finite_strict v = true -> linear mx (mkLR 3 [row]) [] j = v).
  { intros j v H Q. apply feq_strict; [|exact Q]. apply (C row j v H). destruct v; auto; discriminate. }
  assert (S : scores_text (flat_classifier (mkLR 3 [row]) a b) input) by (repeat split; try discriminate; [cbn; lia|exact NE]).
  assert (NN : forall j, (j < 3)%nat -> fis_nan (linear mx (mkLR 3 [row]) [] j) = false).
  { intros [|[|[|j]]] Hj; [rewrite (L 0%nat _ eq_refl eq_refl); reflexivity|rewrite (L 1%nat _ eq_refl eq_refl); reflexivity| |lia].
    exact (proj1 (feq_not_nan _ _ (C row 2%nat f0 eq_refl eq_refl))). }
  destruct (classifier_no_panic mx (flat_classifier (mkLR 3 [row]) a b) input None _ _ [] _ S eq_refl eq_refl eq_refl eq_refl) as (l & Hl).
  { intros s Hs. apply in_map_iff in Hs as (j & <- & Hj). apply in_seq in Hj. apply unit_not_nan, logistic_unit; [exact X|]. apply NN. cbn in Hj. lia. }
  assert (G : exists r, cl_get_intent mx (flat_classifier (mkLR 3 [row]) a b) input None = Ok r)
    by (unfold cl_get_intent; rewrite Hl; eexists; reflexivity).
  destruct G as (r & G). exists r. split; [reflexivity|]. split; [exact G|].
  destruct (saturated_answer mx _ input None _ _ [] r X S eq_refl eq_refl eq_refl ltac:(discriminate) NN G 0 (Some a) ltac:(cbn; lia) eq_refl) as (Sc & k & Lk & Nk).
  - intros i l0 _ Q. discriminate Q.
  - rewrite (L 0%nat _ eq_refl eq_refl). replace (fneg (f32_of_Z 17)) with (f32_of_Z (-17)) by (apply B2SF_inj; vm_compute; reflexivity). exact T.
  - split; [|split; [exact Sc|rewrite (L 0%nat _ eq_refl eq_refl), (L 1%nat _ eq_refl eq_refl); vm_compute; reflexivity]].
    destruct k as [|k]; [|lia]. injection Nk as Nk. symmetry. exact Nk.
Qed.

Lemma binary_order mx lr fs scores : exp_ok mx -> exp_monotone mx -> exp_zero mx -> lr_classes lr = 1%nat ->
  logreg_run mx lr fs = Ok scores -> exists s0 s1, scores = [s0; s1] /\
    (fle f0 (linear mx lr fs 0) = true -> fle s0 s1 = true) /\ (fle (linear mx lr fs 0) f0 = true -> fle s1 s0 = true).
Proof.
  intros X M Z N H. apply logreg_scores in H as [_ H]. destruct (H N) as (p & -> & ->). do 2 eexists. split; [reflexivity|].
  exact (binary_sides mx _ X M Z).
Qed.
