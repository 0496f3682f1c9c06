(** The features of the intent classifier are bounded. *)
From Coq Require Import String List NArith ZArith Bool Arith Lia Permutation Reals Psatz.
From Flocq Require Import Core.Core IEEE754.BinarySingleNaN.
From Verif Require Import Base Sorting F32 M_Types M_Utils M_Engine M_Det M_Feat M_Prob S_Feat S_Safe
  P_Base P_F32 P_Logit P_Engine P_Prob P_Count P_Feat.
Import ListNotations.
Local Open Scope R_scope.

(** Plus infinity or a finite number that is not negative. *)
Definition np (v : f32) : Prop := v = B754_infinity false \/ (is_finite v = true /\ 0 <= B2R v).

Lemma np_nan v : np v -> is_nan v = false.
Proof. intros [->|[H _]]; [reflexivity|apply finite_not_nan; exact H]. Qed.

Lemma add_np a b : np a -> np b -> np (fadd a b) /\ fle a (fadd a b) = true /\ fle b (fadd a b) = true.
Proof.
  intros [->|[Fa Pa]] [->|[Fb Pb]].
  - split; [left; reflexivity|split; reflexivity].
  - destruct b as [s|s| |s m e p]; try discriminate; (split; [left; reflexivity|split; try reflexivity; destruct s; reflexivity]).
  - destruct a as [s|s| |s m e p]; try discriminate; (split; [left; reflexivity|split; try reflexivity; destruct s; reflexivity]).
  - assert (C := Bplus_correct 24 128 _ _ mode_NE a b Fa Fb). simpl round_mode in C.
    change (round radix2 (SpecFloat.fexp 24 128) ZnearestE) with rnd in C.
    assert (R1 : B2R a <= rnd (B2R a + B2R b)) by (apply rnd_ge_format; [apply format_B2R|lra]).
    assert (R2 : B2R b <= rnd (B2R a + B2R b)) by (apply rnd_ge_format; [apply format_B2R|lra]).
    destruct (Rlt_bool_spec (Rabs (rnd (B2R a + B2R b))) (bpow radix2 128)) as [L|L].
    + destruct C as (C1 & C2 & _). fold (fadd a b) in C1, C2.
      split; [right; split; [exact C2|rewrite C1; lra]|]. split; apply fle_R; auto; rewrite C1; assumption.
    + destruct C as (C1 & C2). assert (S : Bsign a = false).
      { destruct (Bsign a) eqn:Sa; [|reflexivity]. exfalso.
        assert (Za : B2R a = 0).
        { destruct a as [s|s| |s m e p]; try discriminate; [reflexivity|]. cbn in Sa. subst s.
          assert (B2R (B754_finite true m e p : f32) < 0); [|lra]. apply (F2R_lt_0 radix2 (Float radix2 (Z.neg m) e)). reflexivity. }
        assert (Zb : B2R b = 0).
        { symmetry in C2. destruct b as [s|s| |s m e p]; try discriminate; [reflexivity|]. cbn in C2. subst s.
          assert (B2R (B754_finite true m e p : f32) < 0); [|lra]. apply (F2R_lt_0 radix2 (Float radix2 (Z.neg m) e)). reflexivity. }
        rewrite Za, Zb, Rplus_0_l, rnd_0, Rabs_R0 in L. pose proof bpow128_pos. lra. }
      rewrite S in C1. assert (I : fadd a b = B754_infinity false).
      { unfold fadd. destruct (Bplus mode_NE a b); cbn in C1; try discriminate C1. injection C1 as ->. reflexivity. }
      rewrite I. split; [left; reflexivity|].
      split; [destruct a as [s|s| |s m e p]|destruct b as [s|s| |s m e p]]; try discriminate; try reflexivity; destruct s; reflexivity.
Qed.

(** The square of a finite number. *)
Lemma square_np v : is_finite v = true ->
  np (fmul v v) /\ (is_finite (fmul v v) = true -> B2R (fmul v v) = rnd (B2R v * B2R v)).
Proof.
  intros F. assert (C := Bmult_correct 24 128 _ _ mode_NE v v). simpl round_mode in C.
  change (round radix2 (SpecFloat.fexp 24 128) ZnearestE) with rnd in C.
  assert (P : 0 <= rnd (B2R v * B2R v)) by (apply rnd_ge_format; [apply format_0|nra]).
  destruct (Rlt_bool_spec (Rabs (rnd (B2R v * B2R v))) (bpow radix2 128)) as [L|L].
  - destruct C as (C1 & C2 & _). fold (fmul v v) in C1, C2. rewrite F in C2. cbn in C2.
    split; [right; split; [exact C2|rewrite C1; exact P]|auto].
  - rewrite xorb_nilpotent in C. assert (I : fmul v v = B754_infinity false).
    { unfold fmul. destruct (Bmult mode_NE v v); cbn in C; try discriminate C. injection C as ->. reflexivity. }
    rewrite I. split; [left; reflexivity|discriminate].
Qed.

Lemma sum_squares raw : forall acc, np acc -> Forall (fun v => is_finite v = true) raw ->
  let s := fold_left (fun n v => fadd n (fmul v v)) raw acc in
  np s /\ fle acc s = true /\ forall v, In v raw -> fle (fmul v v) s = true.
Proof.
  induction raw as [|v raw IH]; intros acc Ha F; cbn [fold_left].
  - split; [exact Ha|]. split; [apply fle_refl, np_nan; exact Ha|intros v []].
  - inv F. destruct (square_np v H1) as [Nv _]. destruct (add_np acc (fmul v v) Ha Nv) as (N & L1 & L2).
    destruct (IH _ N H2) as (I1 & I2 & I3). split; [exact I1|]. split; [eapply fle_trans; eassumption|].
    intros u [<-|Hu]; [eapply fle_trans; eassumption|apply I3; exact Hu].
Qed.

Lemma format_double r : format r -> format (2 * r).
Proof.
  intros F. apply (FLT_format_generic radix2 (-149) 24) in F. destruct F as [[m e] E M X]. cbn in M, X.
  apply format_FLT. exists (Float radix2 m (e + 1)); cbn; [|exact M|lia].
  rewrite E. unfold F2R. cbn [Fnum Fexp]. rewrite bpow_plus. change (bpow radix2 1) with 2. ring.
Qed.

(** Rounding cannot divide a positive number by more than two. *)
Lemma round_half r s : format s -> 0 < s -> rnd r <= s -> r <= 2 * s.
Proof.
  intros F P H. destruct (Rle_or_lt r (2 * s)) as [L|L]; [exact L|]. exfalso.
  assert (2 * s <= rnd r) by (apply rnd_ge_format; [apply format_double; exact F|lra]). lra.
Qed.

Lemma sqrt_np s : np s ->
  (s = B754_infinity false /\ fsqrt s = B754_infinity false) \/
  (is_finite s = true /\ is_finite (fsqrt s) = true /\ B2R (fsqrt s) = rnd (sqrt (B2R s))).
Proof.
  intros [->|[F P]]; [left; split; reflexivity|]. right. split; [exact F|].
  destruct (Bsqrt_correct 24 128 _ _ mode_NE s) as (C1 & C2 & _). fold (fsqrt s) in C1, C2.
  split; [|exact C1]. rewrite C2. destruct s as [b|b| |b m e p]; try discriminate; [reflexivity|].
  destruct b; [|reflexivity]. exfalso.
  assert (B2R (B754_finite true m e p : f32) < 0); [|lra]. apply (F2R_lt_0 radix2 (Float radix2 (Z.neg m) e)). reflexivity.
Qed.

Lemma four_R : B2R four = 4.
Proof. unfold four. cbv -[Rmult Rinv IZR]. lra. Qed.
Lemma four_finite : is_finite four = true.
Proof. reflexivity. Qed.
Lemma big_R : B2R big = bpow radix2 64.
Proof.
  assert (C := binary_normalize_correct 24 128 _ _ mode_NE 1 64 false). simpl round_mode in C.
  change (round radix2 (SpecFloat.fexp 24 128) ZnearestE) with rnd in C.
  replace (F2R (Float radix2 1 64)) with (bpow radix2 64) in C by (unfold F2R; cbn [Fnum Fexp]; ring).
  cbv zeta in C. rewrite (rnd_format (bpow radix2 64)) in C by (apply format_bpow; lia).
  rewrite Rlt_bool_true in C by (rewrite Rabs_pos_eq by apply bpow_ge_0; apply bpow_lt; lia).
  apply C.
Qed.
Lemma big_finite : is_finite big = true.
Proof. reflexivity. Qed.

Lemma fneg_R b : B2R (fneg b) = - B2R b.
Proof. apply B2R_Bopp. Qed.
Lemma fneg_finite (b : f32) : is_finite (fneg b) = is_finite b.
Proof. apply is_finite_Bopp. Qed.
Lemma within_R (b v : f32) : is_finite b = true -> (within b v <-> is_finite v = true /\ Rabs (B2R v) <= B2R b).
Proof.
  intros Fb. unfold within. split.
  - intros [H1 H2]. assert (F : is_finite v = true).
    { destruct v as [|[|]| |]; auto.
      - destruct b as [s|s| |s m e p]; try discriminate; try destruct s; discriminate.
      - destruct b as [s|s| |s m e p]; try discriminate; try destruct s; discriminate.
      }
    split; [exact F|]. apply fle_R in H1; [|rewrite fneg_finite; exact Fb|exact F]. apply fle_R in H2; auto.
    rewrite fneg_R in H1. apply Rabs_le. lra.
  - intros [F H]. apply Rabs_le_inv in H. split; apply fle_R; auto; rewrite ?fneg_finite, ?fneg_R; auto; lra.
Qed.

(** A coordinate divided by the norm. *)
Lemma normalized_bound (raw : list f32) (v : f32) : Forall (fun v : f32 => is_finite v = true /\ Rabs (B2R v) <= bpow radix2 88) raw -> In v raw ->
  within four (fdiv v (divisor raw)) .
Proof.
  intros F Hv. apply within_R; [reflexivity|]. rewrite four_R.
  assert (F' : Forall (fun v : f32 => is_finite v = true) raw) by (eapply Forall_impl; [|exact F]; cbn; tauto).
  assert (Fv : is_finite v = true) by (rewrite Forall_forall in F'; apply F'; exact Hv).
  assert (Bv : Rabs (B2R v) <= bpow radix2 88) by (rewrite Forall_forall in F; apply F; exact Hv).
  unfold divisor. cbv zeta. set (s := fold_left (fun n v : f32 => fadd n (fmul v v)) raw f0).
  destruct (sum_squares raw f0) as (Ns & _ & Sq); [right; split; [reflexivity|rewrite f0_R; lra]|exact F'|]. fold s in Ns, Sq.
  specialize (Sq v Hv).
  assert (Small : forall d, B2R d <> 0 -> Rabs (B2R v / B2R d) <= 4 -> is_finite (fdiv v d) = true /\ Rabs (B2R (fdiv v d)) <= 4).
  { intros d Hd Q. assert (R : Rabs (rnd (B2R v / B2R d)) <= 4).
    { apply Rabs_le. apply Rabs_le_inv in Q. split.
      - apply rnd_ge_format; [apply generic_format_opp, format_IZR; lia|lra].
      - apply rnd_le_format; [apply format_IZR; lia|lra]. }
    destruct (fdiv_correct v d Fv Hd) as [D1 D2].
    - eapply Rle_lt_trans; [exact R|]. change 4 with (bpow radix2 2). apply bpow_lt. lia.
    - split; [exact D2|]. rewrite D1. exact R. }
  destruct (sqrt_np s Ns) as [[_ E]|(Fs & Fr & Er)].
  - (* infinite norm *)
    rewrite E. cbn [flt Bltb]. change (flt f0 (B754_infinity false)) with true. cbv iota.
    destruct v as [b|b| |b m e p]; try discriminate; (split; [destruct b; reflexivity|]); destruct b; cbn; rewrite Rabs_R0; lra.
  - destruct (flt f0 (fsqrt s)) eqn:L.
    + apply flt_R in L; [|reflexivity|exact Fr]. rewrite f0_R in L.
      apply Small; [lra|]. set (d := B2R (fsqrt s)) in *.
      assert (Ps : 0 < B2R s).
      { destruct Ns as [->|[_ P]]; [discriminate|]. destruct P as [P|P]; [exact P|]. exfalso.
        rewrite <- P, sqrt_0, rnd_0 in Er. lra. }
      assert (Q1 : B2R v * B2R v <= 2 * B2R s).
      { apply round_half; [apply format_B2R|exact Ps|]. destruct (square_np v Fv) as [[I|[Fq _]] Rq].
        - rewrite I in Sq. exfalso. clear - Sq Fs. destruct s as [b|b| |b m e p]; try discriminate; try destruct b; discriminate.
        - apply fle_R in Sq; auto. rewrite (Rq Fq) in Sq. exact Sq. }
      assert (Q2 : sqrt (B2R s) <= 2 * d).
      { apply round_half; [unfold d; apply format_B2R|exact L|rewrite <- Er; fold d; lra]. }
      assert (Q3 : B2R s <= 4 * (d * d)).
      { pose proof (sqrt_pos (B2R s)). rewrite <- (sqrt_sqrt (B2R s)) by lra. nra. }
      unfold Rdiv. rewrite Rabs_mult, (Rabs_pos_eq (/ d)) by (left; apply Rinv_0_lt_compat; exact L).
      apply Rmult_le_reg_r with d; [exact L|]. rewrite Rmult_assoc, Rinv_l by lra. rewrite Rmult_1_r.
      apply Rsqr_incr_0_var; [|lra]. rewrite <- Rsqr_abs. unfold Rsqr. nra.
    + (* norm zero: all squares vanish *)
      assert (Z : B2R (fsqrt s) <= 0).
      { destruct (Rle_or_lt (B2R (fsqrt s)) 0) as [K|K]; [exact K|]. apply Bool.not_true_iff_false in L. exfalso. apply L.
        apply flt_R; [reflexivity|exact Fr|rewrite f0_R; exact K]. }
      assert (S0 : B2R s = 0).
      { destruct Ns as [->|[_ P]]; [discriminate|]. destruct P as [P|P]; [|auto]. exfalso.
        assert (T : bpow radix2 (-75) <= sqrt (B2R s)).
        { replace (bpow radix2 (-75)) with (sqrt (bpow radix2 (-150))).
          - apply sqrt_le_1_alt. apply Rle_trans with (bpow radix2 (-149)); [apply bpow_le; lia|].
            assert (G := format_B2R s). apply (FLT_format_generic radix2 (-149) 24) in G. destruct G as [[m e] E M X]. cbn in M, X.
            rewrite E in P |- *. apply gt_0_F2R in P. cbn in P. unfold F2R. cbn [Fnum Fexp].
            apply Rle_trans with (1 * bpow radix2 e); [rewrite Rmult_1_l; apply bpow_le; lia|].
            apply Rmult_le_compat_r; [apply bpow_ge_0|]. change 1 with (IZR 1). apply IZR_le. lia.
          - replace (bpow radix2 (-150)) with (Rsqr (bpow radix2 (-75))) by (unfold Rsqr; rewrite <- bpow_plus; reflexivity).
            apply sqrt_Rsqr. apply bpow_ge_0. }
        assert (bpow radix2 (-75) <= B2R (fsqrt s)) by (rewrite Er; apply rnd_ge_format; [apply format_bpow; lia|exact T]).
        pose proof (bpow_gt_0 radix2 (-75)). lra. }
      assert (Q : B2R v * B2R v <= 1).
      { destruct (Rle_or_lt (B2R v * B2R v) 1) as [K|K]; [exact K|]. exfalso.
        assert (1 <= rnd (B2R v * B2R v)) by (apply rnd_ge_format; [apply format_1|lra]).
        destruct (square_np v Fv) as [[I|[Fq _]] Rq].
        - rewrite I in Sq. clear - Sq Fs. destruct s as [b|b| |b m e p]; try discriminate; try destruct b; discriminate.
        - apply fle_R in Sq; auto. rewrite (Rq Fq) in Sq. lra. }
      apply Small; rewrite f1_R; [lra|]. unfold Rdiv. rewrite Rinv_1, Rmult_1_r. apply Rabs_le. nra.
Qed.

(** Counts stop at 2^24. *)
Lemma rnd_above : rnd (bpow radix2 24 + 1) <= bpow radix2 24.
Proof.
  assert (E : fadd (f32_of_Z (2 ^ 24)) f1 = f32_of_Z (2 ^ 24)) by (apply B2SF_inj; vm_compute; reflexivity).
  assert (B : B2R (f32_of_Z (2 ^ 24)) = bpow radix2 24 /\ is_finite (f32_of_Z (2 ^ 24)) = true).
  { destruct (of_Z_correct (2 ^ 24)) as [H1 H2].
    - change (IZR (2 ^ 24)) with (bpow radix2 24). rewrite rnd_format by (apply format_bpow; lia).
      rewrite Rabs_pos_eq by apply bpow_ge_0. apply bpow_lt. lia.
    - change (IZR (2 ^ 24)) with (bpow radix2 24) in H1. split; [rewrite H1; apply rnd_format, format_bpow; lia|exact H2]. }
  destruct B as [B F]. destruct (fadd_correct (f32_of_Z (2 ^ 24)) f1 F f1_finite) as [C _].
  - rewrite B, f1_R. assert (0 <= rnd (bpow radix2 24 + 1) <= bpow radix2 25).
    { split; [apply rnd_ge_format; [apply format_0|pose proof (bpow_ge_0 radix2 24); lra]|].
      apply rnd_le_format; [apply format_bpow; lia|]. change 1 with (bpow radix2 0).
      apply Rle_trans with (bpow radix2 24 + bpow radix2 24); [apply Rplus_le_compat_l, bpow_le; lia|].
      change 25%Z with (24 + 1)%Z. rewrite (bpow_plus radix2 24 1). change (bpow radix2 1) with 2. lra. }
    rewrite Rabs_pos_eq by tauto. eapply Rle_lt_trans; [apply H|]. apply bpow_lt. lia.
  - rewrite E, B, f1_R in C. lra.
Qed.

Lemma bump_bound n : is_finite (bump n f0) = true /\ 0 <= B2R (bump n f0) <= bpow radix2 24.
Proof.
  induction n as [|n [F B]].
  - cbn. split; [reflexivity|]. split; [lra|apply (bpow_ge_0 radix2 24)].
  - change (bump (S n) f0) with (fadd (bump n f0) f1).
    assert (R : 0 <= rnd (B2R (bump n f0) + B2R f1) <= bpow radix2 24).
    { rewrite f1_R. split; [apply rnd_ge_format; [apply format_0|lra]|].
      eapply Rle_trans; [apply rnd_le|apply rnd_above]. lra. }
    destruct (fadd_correct _ _ F f1_finite) as [C1 C2].
    + rewrite Rabs_pos_eq by tauto. eapply Rle_lt_trans; [apply R|]. apply bpow_lt. lia.
    + split; [exact C2|]. rewrite C1. exact R.
Qed.

Lemma weighted_bound n w : within big w ->
  is_finite (fmul (bump n f0) w) = true /\ Rabs (B2R (fmul (bump n f0) w)) <= bpow radix2 88.
Proof.
  intros W. apply within_R in W; [|reflexivity]. destruct W as [Fw Bw]. rewrite big_R in Bw.
  destruct (bump_bound n) as [F B].
  assert (P : Rabs (B2R (bump n f0) * B2R w) <= bpow radix2 88).
  { rewrite Rabs_mult. change 88%Z with (24 + 64)%Z. rewrite bpow_plus.
    apply Rmult_le_compat; auto using Rabs_pos. rewrite Rabs_pos_eq; tauto. }
  assert (R : Rabs (rnd (B2R (bump n f0) * B2R w)) <= bpow radix2 88).
  { apply Rabs_le_inv in P. apply Rabs_le. split.
    - apply rnd_ge_format; [apply generic_format_opp, format_bpow; lia|lra].
    - apply rnd_le_format; [apply format_bpow; lia|lra]. }
  destruct (fmul_correct _ _ F Fw) as [C1 C2]; [eapply Rle_lt_trans; [exact R|apply bpow_lt; lia]|].
  split; [exact C2|]. rewrite C1. exact R.
Qed.

(** ** Plain summation *)
Lemma format_scaled k : (0 <= k <= 2 ^ 24)%Z -> format (IZR k * bpow radix2 66).
Proof.
  intros H. destruct (Z.eq_dec k (2 ^ 24)) as [->|N].
  - change (IZR (2 ^ 24)) with (bpow radix2 24). rewrite <- bpow_plus. apply format_bpow. lia.
  - apply format_FLT. exists (Float radix2 k 66); [reflexivity|cbn [Fnum]; change (radix2 ^ 24)%Z with (2 ^ 24)%Z; lia|cbn [Fexp]; lia].
Qed.

Definition small (k : Z) (v : f32) : Prop := is_finite v = true /\ Rabs (B2R v) <= IZR k * bpow radix2 66.

Lemma small_bound k : (0 <= k <= 2 ^ 24)%Z -> IZR k * bpow radix2 66 < bpow radix2 128.
Proof.
  intros H. apply Rle_lt_trans with (bpow radix2 24 * bpow radix2 66).
  - apply Rmult_le_compat_r; [apply bpow_ge_0|]. change (bpow radix2 24) with (IZR (2 ^ 24)). apply IZR_le. lia.
  - rewrite <- bpow_plus. apply bpow_lt. lia.
Qed.

Lemma rnd_small k r : (0 <= k <= 2 ^ 24)%Z -> Rabs r <= IZR k * bpow radix2 66 -> Rabs (rnd r) <= IZR k * bpow radix2 66.
Proof.
  intros H P. assert (F := format_scaled k H). apply Rabs_le_inv in P. apply Rabs_le. split.
  - apply rnd_ge_format; [apply generic_format_opp; exact F|lra].
  - apply rnd_le_format; [exact F|lra].
Qed.

Lemma sum_small l : forall k acc, (0 <= k)%Z -> (k + Z.of_nat (length l) <= 2 ^ 24)%Z -> small k acc ->
  (forall v, In v l -> small 1 v) -> small (k + Z.of_nat (length l)) (fold_left fadd l acc).
Proof.
  induction l as [|v l IH]; intros k acc Hk Hl [Fa Ba] Hv.
  - cbn [fold_left length]. rewrite Z.add_0_r. split; assumption.
  - cbn [fold_left length] in *. destruct (Hv v (or_introl eq_refl)) as [Fv Bv].
    assert (B : Rabs (rnd (B2R acc + B2R v)) <= IZR (k + 1) * bpow radix2 66).
    { apply rnd_small; [lia|]. eapply Rle_trans; [apply Rabs_triang|]. rewrite plus_IZR. lra. }
    destruct (fadd_correct acc v Fa Fv) as [C1 C2].
    { eapply Rle_lt_trans; [exact B|]. apply small_bound. lia. }
    replace (k + Z.of_nat (S (length l)))%Z with ((k + 1) + Z.of_nat (length l))%Z by lia. apply IH; [lia|lia| |].
    + split; [exact C2|]. rewrite C1. exact B.
    + intros w Hw. apply Hv. right. exact Hw.
Qed.

Lemma product_small v w : within four v -> within big w -> small 1 (fmul v w).
Proof.
  intros V W. apply within_R in V; [|reflexivity]. apply within_R in W; [|reflexivity].
  destruct V as [Fv Bv], W as [Fw Bw]. rewrite four_R in Bv. rewrite big_R in Bw.
  assert (B : Rabs (rnd (B2R v * B2R w)) <= IZR 1 * bpow radix2 66).
  { apply rnd_small; [lia|]. rewrite Rabs_mult, Rmult_1_l. change 66%Z with (2 + 64)%Z. rewrite bpow_plus.
    apply Rmult_le_compat; auto using Rabs_pos. }
  destruct (fmul_correct v w Fv Fw) as [C1 C2].
  { eapply Rle_lt_trans; [exact B|]. apply small_bound. lia. }
  split; [exact C2|]. rewrite C1. exact B.
Qed.

(** A product of matrices by plain summation meets the contract. *)
Lemma plain_cell_ok e : cell_ok (mkMath (fun row m j => fsum (map (fun p => fmul (fst p) (nth j (snd p) f0)) (combine row m))) e).
Proof.
  intros row m j Hn El Hv Hm. cbn [mx_cell]. unfold fsum.
  destruct (sum_small (map (fun p => fmul (fst p) (nth j (snd p) f0)) (combine row m)) 0 f0) as [F _].
  - lia.
  - rewrite map_length, combine_length. lia.
  - split; [reflexivity|]. change (B2R f0) with 0. rewrite Rabs_R0. lra.
  - intros t Ht. apply in_map_iff in Ht as ([v r] & <- & Hp). cbn [fst snd].
    destruct (Hm r (in_combine_r _ _ _ _ Hp)) as (w & Ew & Bw). rewrite (nth_error_nth _ _ _ Ew).
    apply product_small; [exact (Hv v (in_combine_l _ _ _ _ Hp))|exact Bw].
  - unfold fis_nan. destruct (fold_left _ _ _); try reflexivity; discriminate.
Qed.
