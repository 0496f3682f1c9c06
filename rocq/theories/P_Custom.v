(** Proofs about the custom entity parser. *)
From Coq Require Import String List NArith ZArith Bool Arith Lia.
From Verif Require Import Base M_Types M_Features M_Cache S_Base S_Utils S_Det S_Filler S_Cache P_Base P_Features P_Cache.
Import ListNotations.
Local Open Scope nat_scope.

Definition total (toks : list token) : nat := length (concat (map (fun t => tk_value t ++ [space]) toks)).

Lemma total_cons t toks : total (t :: toks) = length (tk_value t) + 1 + total toks.
Proof. unfold total. cbn [map concat]. rewrite !app_length. reflexivity. Qed.
Lemma total_join toks : toks <> [] -> total toks = S (length (join [space] (map tk_value toks))).
Proof.
  induction toks as [|t toks IH]; [congruence|]. intros _. rewrite total_cons.
  destruct toks as [|u toks]; [cbn; lia|]. rewrite IH by discriminate.
  change (map tk_value (t :: u :: toks)) with (tk_value t :: map tk_value (u :: toks)).
  cbn [map]. cbn [join]. rewrite !app_length. cbn [length]. lia.
Qed.
Lemma joined_start_0 toks : joined_start toks 0 = 0.
Proof. reflexivity. Qed.
Lemma joined_start_S t toks k : joined_start (t :: toks) (S k) = length (tk_value t) + 1 + joined_start toks k.
Proof. unfold joined_start. cbn [firstn]. exact (total_cons t (firstn k toks)). Qed.

Lemma as_i32_small z : (- 2 ^ 31 <= z < 2 ^ 31)%Z -> as_i32 z = z.
Proof. intros H. apply as_i32_id. lia. Qed.

(** Shifts of the characters of the tokens; [j]: joined length so far, [e]: end of the
    previous token. *)
Lemma shifts_spec toks : forall first j e, laid_out toks ->
  (forall t, In t toks -> e <= rstart (tk_char_range t) /\ (Z.of_nat (rend (tk_char_range t)) < 2 ^ 30)%Z) ->
  (Z.of_nat (j + 1 + total toks) < 2 ^ 31)%Z ->
  (first = true -> j = 0 /\ e = 0) ->
  let sep := if first then 0 else 1 in
  let l := char_shifts_from first (Z.of_nat e) (Z.of_nat j - Z.of_nat e) toks in
  (toks <> [] -> length l + 1 = sep + total toks) /\
  forall k o t, nth_error toks k = Some t -> o < length (tk_value t) ->
    nth_error l (sep + joined_start toks k + o) =
      Some (Z.of_nat (j + sep + joined_start toks k) - Z.of_nat (rstart (tk_char_range t)))%Z.
Proof.
  induction toks as [|t toks IH]; intros first j e Hl He Hj Hf sep l.
  - split; [congruence|]. intros [|k]; discriminate.
  - pose proof (proj1 Hl t (or_introl eq_refl)) as [T1 T2]. pose proof (He t (or_introl eq_refl)) as [E1 E2].
    rewrite total_cons in Hj.
    set (s := rstart (tk_char_range t)) in *. set (n := rend (tk_char_range t)) in *.
    assert (Hsep : (if first then 0%Z else 1%Z) = Z.of_nat sep) by (unfold sep; destruct first; reflexivity).
    assert (Hsp : sep <= 1) by (unfold sep; destruct first; lia).
    assert (Hbase : (Z.of_nat j < 2 ^ 31 /\ Z.of_nat e < 2 ^ 30 /\ Z.of_nat n < 2 ^ 30 /\ Z.of_nat s < 2 ^ 30)%Z) by lia.
    assert (Hlist : l = repeat (Z.of_nat (j + sep) - Z.of_nat s)%Z (sep + length (tk_value t)) ++
                        char_shifts_from false (Z.of_nat n) (Z.of_nat (j + sep + length (tk_value t)) - Z.of_nat n)%Z toks).
    { unfold l. cbn [char_shifts_from]. fold s n. rewrite Hsep.
      rewrite (as_i32_small (Z.of_nat s - Z.of_nat e)) by lia.
      rewrite (as_i32_small (Z.of_nat j - Z.of_nat e - (Z.of_nat s - Z.of_nat e - Z.of_nat sep))) by lia.
      rewrite (as_i32_small (Z.of_nat (n - s))) by lia.
      rewrite (as_i32_small (Z.of_nat (n - s) + Z.of_nat sep)) by lia.
      rewrite (as_i32_small (Z.of_nat n)) by lia.
      f_equal; [f_equal; lia|]. f_equal. lia. }
    destruct (IH false (j + sep + length (tk_value t)) n) as [I1 I2].
    + eapply laid_out_tail; exact Hl.
    + intros u Hu. split; [|apply He; right; exact Hu]. apply In_nth_error in Hu. destruct Hu as [i Hi].
      apply (proj2 Hl 0 (S i) t u); [lia|reflexivity|exact Hi].
    + lia.
    + discriminate.
    + set (l' := char_shifts_from false (Z.of_nat n) (Z.of_nat (j + sep + length (tk_value t)) - Z.of_nat n)%Z toks) in *.
      split.
      * intros _. rewrite Hlist, app_length, repeat_length, total_cons.
        destruct toks as [|u toks]; [cbn; lia|]. specialize (I1 ltac:(discriminate)). cbv zeta in I1. lia.
      * intros k o u Hk Ho. rewrite Hlist. destruct k as [|k].
        -- injection Hk as <-. rewrite joined_start_0, Nat.add_0_r.
           rewrite nth_error_app1 by (rewrite repeat_length; lia). rewrite nth_error_repeat by lia. f_equal. fold s. lia.
        -- cbn [nth_error] in Hk. rewrite joined_start_S. rewrite nth_error_app2 by (rewrite repeat_length; lia).
           rewrite repeat_length.
           replace (sep + (length (tk_value t) + 1 + joined_start toks k) + o - (sep + length (tk_value t)))
             with (1 + joined_start toks k + o) by lia.
           rewrite (I2 k o u Hk Ho). f_equal. lia.
Qed.

Lemma tokens_total text toks : tokens_ok text toks -> total toks <= 2 * length text.
Proof.
  intros H. assert (Hg : forall l pre, laid_out l -> (forall t, In t l -> wf_range (length text) (tk_char_range t) /\ pre <= rstart (tk_char_range t)) ->
             pre <= length text -> total l <= 2 * (length text - pre)).
  { induction l as [|t l IH]; intros pre Hl Hin Hpre; [cbn; lia|]. rewrite total_cons.
    pose proof (proj1 Hl t (or_introl eq_refl)) as [T1 T2]. destruct (Hin t (or_introl eq_refl)) as [[W1 W2] P].
    specialize (IH (rend (tk_char_range t))). enough (total l <= 2 * (length text - rend (tk_char_range t))) by lia.
    apply IH; [eapply laid_out_tail; exact Hl| |lia]. intros u Hu. split; [apply Hin; right; exact Hu|].
    apply In_nth_error in Hu. destruct Hu as [i Hi]. apply (proj2 Hl 0 (S i) t u); [lia|reflexivity|exact Hi]. }
  rewrite <- (Nat.sub_0_r (length text)). apply Hg; [eapply tokens_ok_laid_out; exact H| |lia].
  intros t Ht. split; [apply (proj1 H), Ht|lia].
Qed.

Section Text.
  Context (text : str) (toks : list token) (Hok : tokens_ok text toks) (Hlen : (Z.of_nat (length text) < 2 ^ 29)%Z).

  Lemma shifts_text :
    (toks <> [] -> length (compute_char_shifts toks) = length (join [space] (map tk_value toks))) /\
    forall p k o t, joined_at toks p k o t ->
      nth_error (compute_char_shifts toks) p = Some (Z.of_nat p - Z.of_nat (rstart (tk_char_range t) + o))%Z.
  Proof.
    destruct (shifts_spec toks true 0 0) as [S1 S2].
    - eapply tokens_ok_laid_out; exact Hok.
    - intros t Ht. split; [lia|]. destruct (proj1 Hok t Ht) as [[W1 W2] _]. lia.
    - pose proof (tokens_total text toks Hok). lia.
    - auto.
    - unfold compute_char_shifts. cbn [Z.of_nat Z.sub] in *. change (0 - 0)%Z with 0%Z in *.
      split.
      + intros Hn. specialize (S1 Hn). rewrite (total_join toks Hn) in S1. cbv zeta in S1. lia.
      + intros p k o t (H1 & H2 & ->). specialize (S2 k o t H1 H2). cbn [Nat.add] in S2. rewrite S2. f_equal. lia.
  Qed.

  Lemma joined_bound p k o t : joined_at toks p k o t -> (Z.of_nat p < 2 ^ 30)%Z /\ rstart (tk_char_range t) + o < length text.
  Proof.
    intros (H1 & H2 & ->). pose proof (tokens_total text toks Hok) as HT.
    assert (Hj : forall l k t o, nth_error l k = Some t -> o < length (tk_value t) -> joined_start l k + o < total l).
    { clear. induction l as [|u l IH]; intros [|k] t o Hk Ho; try discriminate; rewrite total_cons.
      - injection Hk as <-. rewrite joined_start_0. lia.
      - rewrite joined_start_S. specialize (IH k t o Hk Ho). lia. }
    pose proof (Hj toks k t o H1 H2). split; [lia|].
    pose proof (tokens_ok_laid_out _ _ Hok) as [HL _]. destruct (HL t (nth_error_In _ _ H1)) as [L1 L2].
    destruct (proj1 Hok t (nth_error_In _ _ H1)) as [[W1 W2] _]. lia.
  Qed.

  Lemma remap_spec r r' : remap (compute_char_shifts toks) r = Ok r' ->
    forall a oa ta b ob tb, joined_at toks (rstart r) a oa ta -> joined_at toks (rend r - 1) b ob tb -> 0 < rend r ->
    r' = (rstart (tk_char_range ta) + oa, rstart (tk_char_range tb) + ob + 1).
  Proof.
    intros H a oa ta b ob tb Ha Hb Hr. unfold remap, usub in H. destruct (Nat.leb_spec 1 (rend r)); [|lia]. cbn [bind] in H.
    unfold index in H. rewrite (proj2 shifts_text _ _ _ _ Ha), (proj2 shifts_text _ _ _ _ Hb) in H. cbn [bind] in H.
    destruct (joined_bound _ _ _ _ Ha) as [A1 A2]. destruct (joined_bound _ _ _ _ Hb) as [B1 B2].
    injection H as <-. f_equal.
    - rewrite (as_i32_small (Z.of_nat (rstart r))) by lia. rewrite as_i32_small by lia. unfold as_usize. rewrite Z.mod_small by lia. lia.
    - rewrite (as_i32_small (Z.of_nat (rend r))) by lia. rewrite as_i32_small by lia. unfold as_usize. rewrite Z.mod_small by lia. lia.
  Qed.

  Lemma remap_ok r : wf_range (length (join [space] (map tk_value toks))) r -> exists r', remap (compute_char_shifts toks) r = Ok r'.
  Proof.
    intros [W1 W2]. assert (Hn : toks <> []) by (intros ->; cbn in W2; lia).
    pose proof (proj1 shifts_text Hn) as HL. unfold remap, usub, index. destruct (Nat.leb_spec 1 (rend r)); [|lia].
    destruct (nth_error _ (rstart r)) eqn:E1; [|apply nth_error_None in E1; lia]. cbn [bind].
    destruct (nth_error _ (rend r - 1)) eqn:E2; [|apply nth_error_None in E2; lia]. cbn [bind]. eauto.
  Qed.
End Text.

Lemma custom_moved x l gaz text kinds alts out :
  let toks := x_tokenize x l text in
  tokens_ok text toks -> (Z.of_nat (length text) < 2 ^ 29)%Z ->
  custom_extract x l gaz text kinds alts = Ok out ->
  exists es, gaz (join [space] (map tk_value toks)) kinds alts = Ok es /\ Forall2 (moved_entity toks) es out.
Proof.
  intros toks Hok Hlen H. unfold custom_extract in H. fold toks in H. bind_inv H. exists a. split; [exact E|]. clear E.
  revert out H. induction a as [|e es IH]; intros out H; cbn [mapM] in H; [injection H as <-; constructor|].
  bind_inv H. bind_inv H. injection H as <-. bind_inv E. injection E as <-. constructor; [|apply IH; exact E0].
  repeat (split; [reflexivity|]). cbn [ce_range]. eapply remap_spec; eassumption.
Qed.

Lemma custom_total x l gaz text kinds alts es :
  let toks := x_tokenize x l text in
  let joined := join [space] (map tk_value toks) in
  tokens_ok text toks -> (Z.of_nat (length text) < 2 ^ 29)%Z ->
  gaz joined kinds alts = Ok es -> (forall e, In e es -> wf_range (length joined) (ce_range e)) ->
  exists out, custom_extract x l gaz text kinds alts = Ok out.
Proof.
  intros toks joined Hok Hlen Hg He. unfold custom_extract. fold toks. fold joined. rewrite Hg. cbn [bind]. clear Hg.
  induction es as [|e es IH]; [exists []; reflexivity|]. cbn [mapM].
  destruct (remap_ok text toks Hok Hlen (ce_range e) (He e (or_introl eq_refl))) as [r' ->]. cbn [bind].
  destruct IH as [out ->]; [intros e' H'; apply He; right; exact H'|]. cbn [bind]. eauto.
Qed.

(** The characters of the joined text. *)
Lemma joined_char toks p k o t : joined_at toks p k o t ->
  char_at (join [space] (map tk_value toks)) p = char_at (tk_value t) o.
Proof.
  intros (H1 & H2 & ->). unfold char_at. revert k H1. induction toks as [|u toks IH]; intros [|k] H1; try discriminate.
  - injection H1 as ->. rewrite joined_start_0. cbn [map]. cbn [Nat.add]. destruct toks; cbn [map join]; [reflexivity|].
    rewrite nth_error_app1 by exact H2. reflexivity.
  - cbn [nth_error] in H1. rewrite joined_start_S. cbn [map].
    destruct toks as [|v toks]; [destruct k; discriminate|]. cbn [map] in *.
    change (join [space] (tk_value u :: tk_value v :: map tk_value toks))
      with (tk_value u ++ [space] ++ join [space] (tk_value v :: map tk_value toks)).
    rewrite nth_error_app2 by lia.
    replace (length (tk_value u) + 1 + joined_start (v :: toks) k + o - length (tk_value u)) with (S (joined_start (v :: toks) k + o)) by lia.
    cbn [app nth_error]. apply IH. exact H1.
Qed.

Lemma joined_cases toks p : p < length (join [space] (map tk_value toks)) ->
  (exists k o t, joined_at toks p k o t) \/ char_at (join [space] (map tk_value toks)) p = Some space.
Proof.
  revert p. induction toks as [|u toks IH]; intros p Hp; [cbn in Hp; lia|].
  destruct (Nat.lt_ge_cases p (length (tk_value u))) as [L|L].
  - left. exists 0, p, u. split; [reflexivity|]. split; [exact L|reflexivity].
  - destruct toks as [|v toks]; [cbn in Hp; lia|].
    change (join [space] (map tk_value (u :: v :: toks)))
      with (tk_value u ++ [space] ++ join [space] (map tk_value (v :: toks))) in *.
    rewrite !app_length in Hp. cbn [length] in Hp. unfold char_at in *. rewrite nth_error_app2 by lia.
    destruct (p - length (tk_value u)) as [|q] eqn:Eq; [right; reflexivity|]. cbn [app nth_error].
    destruct (IH q) as [(k & o & t & K1 & K2 & K3)|H]; [cbn [map] in *; lia| |right; exact H].
    left. exists (S k), o, t. split; [exact K1|]. split; [exact K2|]. rewrite joined_start_S. lia.
Qed.

(** ** C36 *)
Lemma Forall2_firstn {A B} (R : A -> B -> Prop) n : forall l m, Forall2 R l m -> Forall2 R (firstn n l) (firstn n m).
Proof. induction n as [|n IH]; intros l m H; [constructor|]. destruct H; cbn [firstn]; constructor; auto. Qed.
Lemma Forall2_skipn {A B} (R : A -> B -> Prop) n : forall l m, Forall2 R l m -> Forall2 R (skipn n l) (skipn n m).
Proof. induction n as [|n IH]; intros l m H; [exact H|]. destruct H; cbn [skipn]; [constructor|auto]. Qed.

Lemma lower_text lower f text : lowercasing lower f -> charwise f text -> lower_case_of f text (lower text).
Proof.
  intros Hl Hc. destruct (Hl text) as (pieces & Hp & ->). unfold lower_case_of. clear Hl.
  induction Hp as [|c piece text pieces Hcp Hp IH]; [constructor|].
  assert (Hone : length piece = 1).
  { destruct Hcp as [->|[_ ->]]; [apply Hc; left; reflexivity|reflexivity]. }
  destruct piece as [|d [|? ?]]; try discriminate. cbn [concat app]. constructor; [exact Hcp|].
  apply IH. intros b Hb. apply Hc. right; exact Hb.
Qed.

Lemma charwise_ranges lower f text r : lowercasing lower f -> charwise f text ->
  lower_case_of f (substring text r) (substring (lower text) r) /\ length (lower text) = length text.
Proof.
  intros Hl Hc. pose proof (lower_text lower f text Hl Hc) as H. split.
  - unfold substring. apply Forall2_firstn, Forall2_skipn. exact H.
  - symmetry. clear Hl Hc r. induction H as [|? ? ? ? ? ? IH]; [reflexivity|]. cbn [length]. rewrite IH. reflexivity.
Qed.

Lemma custom_cached x f l gaz cap h r out :
  let lower := x_lower x in
  let raw := custom_extract x l gaz in
  let text := rq_text r in
  let toks := x_tokenize x l (lower text) in
  lowercasing lower f -> charwise f text -> tokens_ok (lower text) toks -> (Z.of_nat (length text) < 2 ^ 29)%Z ->
  no_cached_panic lower raw h ->
  fst (extract lower raw cap (snd (calls lower raw cap fresh h)) r) = Ok out ->
  exists es, gaz (join [space] (map tk_value toks)) (rq_kinds r) (rq_alts r) = Ok es /\
    Forall2 (moved_entity toks) es out /\
    forall e, In e out -> lower_case_of f (substring text (ce_range e)) (substring (lower text) (ce_range e)).
Proof.
  intros lower raw text toks Hf Hc Hok Hlen Hn H.
  destruct (calls_answers lower raw cap h fresh (valid_nil raw) eq_refl Hn) as (_ & Hv & Hp).
  destruct (extract_answer lower raw cap _ r Hv (or_introl Hp)) as [E _]. rewrite E in H. unfold answer, raw in H.
  destruct (custom_moved x l gaz (lower text) (rq_kinds r) (rq_alts r) out Hok) as (es & E1 & E2).
  - destruct (charwise_ranges lower f text (0, 0) Hf Hc) as [_ ->]. exact Hlen.
  - exact H.
  - exists es. split; [exact E1|]. split; [exact E2|]. intros e _. apply (charwise_ranges lower f text); assumption.
Qed.
