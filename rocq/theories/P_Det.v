(** Proofs about src/intent_parser/deterministic_intent_parser.rs. *)
From Coq Require Import List NArith ZArith Bool Lia Permutation Sorted Arith.
From Verif Require Import Base Sorting F32 M_Types M_Utils M_Engine M_Det
  S_Base S_Utils S_Engine S_Det P_Base P_F32 P_Engine P_Utils.
Import ListNotations.

(** ** Mapping ranges back *)
Lemma shift_fold a ms : forall s p,
  let st := fold_left (shift_step a) ms (s, p) in
  (st = (s, p) /\ forall k v, In (k, v) ms -> rend k <= a -> rend k <= p) \/
  (exists k v, In (k, v) ms /\ rend k <= a /\ p < rend k /\
     st = (as_i32 (as_i32 (Z.of_nat (rend v)) - as_i32 (Z.of_nat (rend k))), rend k) /\
     forall k' v', In (k', v') ms -> rend k' <= a -> rend k' <= rend k).
Proof.
  induction ms as [|[k v] ms IH]; intros s p; cbv zeta; cbn [fold_left].
  - left. split; auto. contradiction.
  - unfold shift_step at 2 4. destruct ((rend k <=? a) && (p <? rend k)) eqn:E.
    + apply andb_true_iff in E as [E1 E2]. apply Nat.leb_le in E1. apply Nat.ltb_lt in E2.
      right. destruct (IH (as_i32 (as_i32 (Z.of_nat (rend v)) - as_i32 (Z.of_nat (rend k)))) (rend k))
        as [[Hst Hn]|(k' & v' & Hk & H1 & H2 & Hst & Hm)].
      * exists k, v. split; [left; auto|]. repeat split; auto.
        intros k' v' [Eq|Hk'] L; [inv Eq; lia|]. eauto.
      * exists k', v'. split; [right; auto|]. repeat split; auto; [lia|].
        intros k2 v2 [Eq|Hk2] L; [inv Eq; lia|]. eauto.
    + assert (N : rend k <= a -> rend k <= p).
      { intros L. apply Nat.leb_le in L. rewrite L in E. simpl in E. apply Nat.ltb_ge in E. exact E. }
      destruct (IH s p) as [[Hst Hn]|(k' & v' & Hk & H1 & H2 & Hst & Hm)].
      * left. split; auto. intros k' v' [Eq|Hk'] L; [inv Eq; auto|]. eauto.
      * right. exists k', v'. split; [right; auto|]. repeat split; auto.
        intros k2 v2 [Eq|Hk2] L; [inv Eq; apply N in L; lia|]. eauto.
Qed.

Lemma restore_placeholder n es ms k v :
  edits_ok n 0 es -> (forall e, In e es -> snd e <> []) ->
  Permutation (edit_positions 0 0 es) ms -> In (k, v) (edit_positions 0 0 es) ->
  restore_range ms k = v.
Proof.
  intros OK NE P H. unfold restore_range.
  assert (ND : NoDup (hkeys ms)).
  { eapply Permutation_NoDup; [apply Permutation_map; exact P|]. eapply edit_positions_NoDup; eauto. }
  rewrite (hget_NoDup _ range_eqb_spec k v); auto. eapply Permutation_in; eauto.
Qed.

Lemma restore_outside text es ms r :
  edits_ok (length text) 0 es -> (forall e, In e es -> snd e <> []) ->
  Permutation (edit_positions 0 0 es) ms ->
  let new := apply_edits text 0 es in
  (Z.of_nat (length text) < 2 ^ 31)%Z -> (Z.of_nat (length new) < 2 ^ 31)%Z ->
  rstart r <= rend r -> rend r <= length new ->
  (forall k v, In (k, v) (edit_positions 0 0 es) -> rend k <= rstart r \/ rend r <= rstart k) ->
  let r' := restore_range ms r in
  rstart r' <= rend r' /\ rend r' <= length text /\ same_text new r text r' /\
  forall k v, In (k, v) (edit_positions 0 0 es) -> rend v <= rstart r' \/ rend r' <= rstart v.
Proof.
  intros OK NE P new B1 B2 R1 R2 Out r'.
  change (2 ^ 31)%Z with 2147483648%Z in *.
  destruct r as [a b]. cbn [rstart rend fst snd] in R1, R2, Out.
  assert (PS := proj2 (edit_positions_sorted es _ 0 0 OK NE)).
  assert (Hnone : hget range_eqb (a, b) ms = None).
  { apply (hget_None _ range_eqb_spec). intros H. unfold hkeys in H. apply in_map_iff in H as ([k v] & Ek & Hk).
    simpl in Ek. subst k. eapply Permutation_in in Hk; [|apply Permutation_sym; eauto].
    assert (Hk' := Hk). apply PS in Hk'. apply Out in Hk. unfold rstart, rend in *. simpl in *. lia. }
  destruct (gap_text text es 0 0 [] a b OK NE eq_refl) as (c & q & Hcq & Hq & Hc & Hs & Hd); auto; try lia.
  simpl app in Hs. fold new in Hs.
  assert (Hshift : get_range_shift (a, b) ms = (Z.of_nat c - Z.of_nat q)%Z /\ c <= length text).
  { unfold get_range_shift. cbn [rstart fst].
    destruct (shift_fold a ms 0%Z 0) as [[Hst Hn]|(k & v & Hk & H1 & H2 & Hst & Hm)]; cbv zeta in *; rewrite Hst; cbn [fst].
    - destruct Hcq as [(-> & -> & _)|(k & v & Hk & Hk' & -> & -> & Hm)]; [split; [reflexivity|lia]|].
      exfalso. assert (rend k <= 0) by (eapply Hn; [eapply Permutation_in; eauto|auto]).
      apply PS in Hk. lia.
    - eapply Permutation_in in Hk; [|apply Permutation_sym; eauto].
      assert (Hk1 := Hk). apply PS in Hk1.
      destruct Hcq as [(-> & -> & Hn)|(k0 & v0 & Hk0 & Hk' & -> & -> & Hm0)].
      + apply Hn in Hk. lia.
      + assert (Hk2 := Hk0). apply PS in Hk2.
        assert (E : rend k = rend k0).
        { assert (rend k <= rend k0) by (eapply Hm0; eauto).
          assert (rend k0 <= rend k) by (eapply Hm; [eapply Permutation_in; eauto|auto]). lia. }
        assert (Ev : v = v0).
        { destruct (edit_positions_sorted es _ 0 0 OK NE) as [S _].
          apply In_nth_error in Hk as [i Hi]. apply In_nth_error in Hk0 as [j Hj].
          assert (i = j).
          { destruct (Nat.lt_trichotomy i j) as [L|[L|L]]; auto.
            - destruct (sorted_nth _ _ S i j _ _ L Hi Hj) as [L1 _]. simpl in L1. lia.
            - destruct (sorted_nth _ _ S j i _ _ L Hj Hi) as [L1 _]. simpl in L1. lia. }
          subst j. congruence. }
        subst v0. assert (rend k <= length new) by lia.
        rewrite <- E. split; [|lia].
        rewrite (as_i32_id (Z.of_nat (rend v))) by lia.
        rewrite (as_i32_id (Z.of_nat (rend k))) by lia.
        apply as_i32_id. lia. }
  destruct Hshift as [Hshift Hcl].
  assert (E : r' = (c + (a - q), c + (b - q))).
  { unfold r', restore_range. rewrite Hnone, Hshift. cbn [rstart rend fst snd].
    rewrite (as_i32_id (Z.of_nat a)) by lia. rewrite (as_i32_id (Z.of_nat b)) by lia.
    rewrite !as_i32_id by lia.
    replace (Z.of_nat a + (Z.of_nat c - Z.of_nat q))%Z with (Z.of_nat (c + (a - q))) by lia.
    replace (Z.of_nat b + (Z.of_nat c - Z.of_nat q))%Z with (Z.of_nat (c + (b - q))) by lia.
    rewrite !as_usize_nat by (change (2 ^ 64)%Z with 18446744073709551616%Z; lia). reflexivity. }
  rewrite E. cbn [rstart rend fst snd]. split; [lia|]. split; [lia|]. split; auto.
  apply substring_same_text; auto.
Qed.

(** ** Stop word removal *)
Section Preprocess.
  Context (x : Ext) (stop : list str).

  Definition covers (t : token) (i : nat) : bool :=
    (rstart (tk_char_range t) <=? i) && (i <? rend (tk_char_range t))
    && negb (smem (x_normalize x (tk_value t)) stop).
  Definition pre_char (s : str) (ts : list token) (i : nat) : char :=
    if existsb (fun t => covers t i) ts then nth i s space else space.

  Lemma map_const_seq {A} (f : nat -> A) c n k :
    (forall i, n <= i < n + k -> f i = c) -> map f (seq n k) = repeat c k.
  Proof.
    revert n. induction k; intros n H; simpl; auto. f_equal; [apply H; lia|]. apply IHk. intros. apply H. lia.
  Qed.

  Lemma map_nth_seq s d n k : n + k <= length s ->
    map (fun i => nth i s d) (seq n k) = substring s (n, n + k).
  Proof.
    revert n. induction k; intros n H.
    - simpl. unfold substring, rlen. simpl. replace (n + 0 - n) with 0 by lia. reflexivity.
    - simpl. rewrite IHk by lia.
      rewrite (substring_split s n (S n) (n + S k)) by lia.
      replace (S n + k) with (n + S k) by lia.
      change (nth n s d :: substring s (S n, n + S k)) with ([nth n s d] ++ substring s (S n, n + S k)). f_equal.
      unfold substring, rlen, rstart, rend. cbn [fst snd]. replace (S n - n) with 1 by lia.
      rewrite <- (firstn_skipn n s) at 1. rewrite app_nth2; rewrite firstn_length_le by lia; [|lia].
      rewrite Nat.sub_diag. assert (L : length (skipn n s) > 0) by (rewrite skipn_length; lia).
      destruct (skipn n s); simpl in *; [lia|reflexivity].
  Qed.

  Lemma preprocess_fold s ts : forall txt cur,
    (forall t, In t ts -> token_ok s t /\ cur <= rstart (tk_char_range t)) ->
    StronglySorted (fun a b => rend (tk_char_range a) <= rstart (tk_char_range b)) ts ->
    cur <= length s ->
    exists e, cur <= e /\ e <= length s /\
      fold_left (preprocess_step x stop) ts (Ok (txt, cur))
      = Ok (txt ++ map (pre_char s ts) (seq cur (e - cur)), e) /\
      forall i, e <= i -> existsb (fun t => covers t i) ts = false.
  Proof.
    induction ts as [|t ts IH]; intros txt cur OK S Hc; cbn [fold_left].
    - exists cur. rewrite Nat.sub_diag. simpl. rewrite app_nil_r. auto.
    - destruct (OK t (or_introl eq_refl)) as [([W1 W2] & V & _) L]. inv S. rewrite Forall_forall in H2.
      set (r := tk_char_range t) in *.
      unfold preprocess_step at 2. cbn [bind fst snd]. fold r. unfold usub.
      destruct (cur <=? rstart r) eqn:E; [|apply Nat.leb_gt in E; lia]. cbn [bind].
      set (value := if smem (x_normalize x (tk_value t)) stop then spaces (length (tk_value t)) else tk_value t).
      destruct (IH (txt ++ spaces (rstart r - cur) ++ value) (rend r)) as (e & He1 & He2 & Hf & Hn); auto.
      { intros t' Ht'. split; [apply OK; right; auto|]. apply H2. exact Ht'. }
      exists e. split; [lia|]. split; auto. split.
      + etransitivity; [exact Hf|]. rewrite <- !app_assoc. f_equal. f_equal. f_equal.
        replace (e - cur) with ((rstart r - cur) + ((rend r - rstart r) + (e - rend r))) by lia.
        rewrite !seq_app, !map_app.
        replace (cur + (rstart r - cur)) with (rstart r) by lia.
        replace (rstart r + (rend r - rstart r)) with (rend r) by lia.
        assert (Tail : forall i, i < rend r -> existsb (fun t => covers t i) ts = false).
        { intros i Hi. apply not_true_iff_false. intros Hx. apply existsb_exists in Hx as (t' & Ht' & C).
          unfold covers in C. rewrite !andb_true_iff, Nat.leb_le in C.
          specialize (H2 t' Ht'). simpl in H2. fold r in H2. lia. }
        f_equal; [|f_equal].
        * symmetry. apply map_const_seq. intros i Hi. unfold pre_char. cbn [existsb].
          rewrite Tail by lia. unfold covers. fold r.
          replace (rstart r <=? i) with false by (symmetry; apply Nat.leb_gt; lia). reflexivity.
        * assert (Lv : length (tk_value t) = rend r - rstart r) by (rewrite V, substring_length by lia; reflexivity).
          unfold value. destruct (smem (x_normalize x (tk_value t)) stop) eqn:Es.
          -- rewrite Lv. symmetry. apply map_const_seq. intros i Hi. unfold pre_char. cbn [existsb].
             rewrite Tail by lia. unfold covers. rewrite Es. rewrite andb_false_r. reflexivity.
          -- rewrite V. replace (substring s r) with (substring s (rstart r, rstart r + (rend r - rstart r))).
             2: { f_equal. replace (rstart r + (rend r - rstart r)) with (rend r) by lia.
                  symmetry. destruct r; reflexivity. }
             rewrite <- (map_nth_seq s space) by lia. apply map_ext_in. intros i Hi.
             apply in_seq in Hi. unfold pre_char. cbn [existsb]. unfold covers. rewrite Es. fold r.
             replace (rstart r <=? i) with true by (symmetry; apply Nat.leb_le; lia).
             replace (i <? rend r) with true by (symmetry; apply Nat.ltb_lt; lia). reflexivity.
        * apply map_ext_in. intros i Hi. apply in_seq in Hi. unfold pre_char. cbn [existsb].
          unfold covers at 2. fold r. replace (i <? rend r) with false by (symmetry; apply Nat.ltb_ge; lia).
          rewrite andb_false_r. reflexivity.
      + intros i Hi. cbn [existsb]. rewrite Hn by lia. unfold covers. fold r.
        replace (i <? rend r) with false by (symmetry; apply Nat.ltb_ge; lia).
        rewrite andb_false_r. reflexivity.
  Qed.
End Preprocess.

Lemma det_preprocess_eq x dp s intent :
  tokens_ok s (x_tokenize x (dp_lang dp) s) ->
  det_preprocess x dp s intent =
  Ok (map (pre_char x (stop_words_of (dp_stop dp) (dp_specific_stop dp) intent) s
                    (x_tokenize x (dp_lang dp) s)) (seq 0 (length s))).
Proof.
  intros [OK S]. unfold det_preprocess.
  set (stop := stop_words_of _ _ _). set (ts := x_tokenize x (dp_lang dp) s) in *.
  destruct (preprocess_fold x stop s ts [] 0) as (e & He1 & He2 & Hf & Hn).
  { intros t Ht. split; [auto|lia]. }
  { apply (nth_sorted (fun a b => rend (tk_char_range a) <= rstart (tk_char_range b))). exact S. }
  { lia. }
  match goal with |- bind ?m _ = _ => replace m with (Ok (map (pre_char x stop s ts) (seq 0 (e - 0)), e)) by (symmetry; exact Hf) end.
  cbn [bind fst snd]. unfold usub.
  destruct (e <=? length s) eqn:E; [|apply Nat.leb_gt in E; lia]. cbn [bind]. f_equal.
  replace (length s) with (e + (length s - e)) at 2 by lia. rewrite seq_app, map_app.
  simpl app. rewrite Nat.sub_0_r. f_equal.
  symmetry. apply map_const_seq. intros i Hi. unfold pre_char. rewrite Hn by lia. reflexivity.
Qed.

Lemma det_preprocess_blanked x dp s intent :
  tokens_ok s (x_tokenize x (dp_lang dp) s) ->
  exists s', det_preprocess x dp s intent = Ok s' /\
    blanked (in_meaningful_token x (dp_lang dp)
               (stop_words_of (dp_stop dp) (dp_specific_stop dp) intent) s) s s'.
Proof.
  intros T. eexists. split; [apply det_preprocess_eq; exact T|]. split.
  - rewrite map_length, seq_length. reflexivity.
  - intros i Hi. unfold char_at.
    set (stop := stop_words_of _ _ _). set (f := pre_char _ _ _ _).
    assert (E : nth_error (map f (seq 0 (length s))) i = Some (f i)).
    { rewrite nth_error_map. rewrite (nth_error_nth' _ 0) by (rewrite seq_length; lia).
      rewrite seq_nth by lia. reflexivity. }
    rewrite E. unfold f, pre_char.
    destruct (existsb (fun t => covers x stop t i) (x_tokenize x (dp_lang dp) s)) eqn:C.
    + apply existsb_exists in C as (t & Ht & C). unfold covers in C.
      rewrite !andb_true_iff, Nat.leb_le, Nat.ltb_lt, negb_true_iff, smem_false in C.
      split.
      * intros _. symmetry. apply nth_error_nth'. exact Hi.
      * intros N. exfalso. apply N. exists t. unfold in_range. tauto.
    + split; auto. intros (t & Ht & R & N). exfalso. rewrite <- not_true_iff_false in C. apply C.
      apply existsb_exists. exists t. split; auto. unfold covers, in_range in *.
      rewrite !andb_true_iff, Nat.leb_le, Nat.ltb_lt, negb_true_iff, smem_false. tauto.
Qed.

(** ** Statements from the result of [replace_entities] *)
Lemma dedup_slots_resolution x l slots :
  (forall s, In s slots -> rstart (is_range s) < rend (is_range s) /\
     (Z.of_nat (length (x_tokenize x l (is_value s)) + length (is_value s)) < 2 ^ 31)%Z) ->
  overlap_resolution is_range
    (fun s => Z.of_nat (length (x_tokenize x l (is_value s)) + length (is_value s)))
    slots (deduplicate_overlapping_slots x l slots).
Proof.
  intros H. change (deduplicate_overlapping_slots x l slots) with (resolve is_range (slot_sort_key x l) slots).
  destruct (resolve_resolution is_range (slot_sort_key x l) slots) as (O & d & P & D).
  { intros e He. apply H. exact He. }
  split; auto. exists d. split; auto. intros s Hs. destruct (D s Hs) as (k & Hk & Ov & Le).
  exists k. split; auto. split; auto.
  assert (In s slots) by (eapply Permutation_in; [apply Permutation_sym; eauto|apply in_or_app; auto]).
  assert (In k slots) by (apply (resolve_In is_range (slot_sort_key x l)); exact Hk).
  apply H in H0 as (H0 & H0'), H1 as (H1 & H1').
  change (2 ^ 31)%Z with 2147483648%Z in *.
  unfold slot_sort_key in *. rewrite !as_i32_id in Le by lia. lia.
Qed.

Lemma restore_placeholder_spec text es ph mapping new ord k r :
  (forall e, In e es -> wf_range (length text) (me_range e) /\ ph (me_name e) <> []) ->
  (Z.of_nat (length text) < 32768)%Z ->
  replace_entities text es ph = (mapping, new) ->
  (Z.of_nat (length new) < 32768)%Z ->
  In (k, r) mapping -> restore_range (reorder ord mapping) k = r.
Proof.
  intros H B1 E B2 Hk. destruct (replaced text es ph mapping new H B1 E B2) as (-> & -> & OK & NE).
  eapply restore_placeholder; eauto. apply reorder_perm.
Qed.

Lemma restore_outside_spec text es ph mapping new ord r :
  (forall e, In e es -> wf_range (length text) (me_range e) /\ ph (me_name e) <> []) ->
  (Z.of_nat (length text) < 32768)%Z ->
  replace_entities text es ph = (mapping, new) ->
  (Z.of_nat (length new) < 32768)%Z ->
  rstart r <= rend r -> rend r <= length new ->
  (forall k v, In (k, v) mapping -> rend k <= rstart r \/ rend r <= rstart k) ->
  let r' := restore_range (reorder ord mapping) r in
  rstart r' <= rend r' /\ rend r' <= length text /\ same_text new r text r' /\
  (forall k v, In (k, v) mapping -> rend v <= rstart r' \/ rend r' <= rstart v).
Proof.
  intros H B1 E B2 R1 R2 Out. destruct (replaced text es ph mapping new H B1 E B2) as (-> & -> & OK & NE).
  apply restore_outside; auto; try (change (2 ^ 31)%Z with 2147483648%Z; lia). apply reorder_perm.
Qed.

Lemma shift_perm a ms ms' :
  Permutation ms ms' ->
  (forall k v k' v', In (k, v) ms -> In (k', v') ms -> rend k = rend k' -> v = v') ->
  fst (fold_left (shift_step a) ms (0%Z, 0)) = fst (fold_left (shift_step a) ms' (0%Z, 0)).
Proof.
  intros P U.
  destruct (shift_fold a ms 0%Z 0) as [[H1 N1]|(k1 & v1 & I1 & L1 & P1 & H1 & M1)];
  destruct (shift_fold a ms' 0%Z 0) as [[H2 N2]|(k2 & v2 & I2 & L2 & P2 & H2 & M2)];
  cbv zeta in *; rewrite H1, H2; auto.
  - eapply Permutation_in in I2; [|apply Permutation_sym; eauto]. apply N1 in I2; auto. lia.
  - eapply Permutation_in in I1; [|eauto]. apply N2 in I1; auto. lia.
  - assert (I2' := I2). eapply Permutation_in in I2'; [|apply Permutation_sym; eauto].
    assert (I1' := I1). eapply Permutation_in in I1'; [|eauto].
    assert (Er : rend k1 = rend k2).
    { assert (rend k2 <= rend k1) by (eapply M1; eauto). assert (rend k1 <= rend k2) by (eapply M2; eauto). lia. }
    rewrite Er, (U k1 v1 k2 v2); auto.
Qed.

Lemma restore_order_spec text es ph mapping new ord ord' r :
  (forall e, In e es -> wf_range (length text) (me_range e) /\ ph (me_name e) <> []) ->
  (Z.of_nat (length text) < 32768)%Z ->
  replace_entities text es ph = (mapping, new) ->
  (Z.of_nat (length new) < 32768)%Z ->
  restore_range (reorder ord mapping) r = restore_range (reorder ord' mapping) r.
Proof.
  intros H B1 E B2. destruct (replaced text es ph mapping new H B1 E B2) as (-> & -> & OK & NE).
  set (m := edit_positions 0 0 _) in *.
  assert (P : Permutation (reorder ord m) (reorder ord' m)).
  { eapply Permutation_trans; [apply Permutation_sym|]; apply reorder_perm. }
  assert (ND : NoDup (hkeys (reorder ord m))).
  { eapply Permutation_NoDup; [apply Permutation_map, reorder_perm|]. eapply edit_positions_NoDup; eauto. }
  unfold restore_range. rewrite (hget_perm _ range_eqb_spec _ _ r ND P).
  destruct (hget range_eqb r (reorder ord' m)); auto.
  assert (Es : get_range_shift r (reorder ord m) = get_range_shift r (reorder ord' m)).
  { apply shift_perm; auto. intros k v k' v' H1 H2 Er. rewrite reorder_In in H1, H2.
    destruct (edit_positions_sorted _ _ 0 0 OK NE) as [S B]. fold m in S, B.
    apply In_nth_error in H1 as [i Hi]. apply In_nth_error in H2 as [j Hj].
    destruct (Nat.lt_trichotomy i j) as [L|[L|L]].
    - destruct (sorted_nth _ _ S i j _ _ L Hi Hj) as [L1 _]. simpl in L1.
      apply nth_error_In in Hj. apply B in Hj. lia.
    - subst j. congruence.
    - destruct (sorted_nth _ _ S j i _ _ L Hj Hi) as [L1 _]. simpl in L1.
      apply nth_error_In in Hi. apply B in Hi. lia. }
  rewrite Es. reflexivity.
Qed.

Lemma stop_words_spec x lang_of compile o1 o2 o3 m res dp intent w :
  NoDup (map fst (dm_stop_whitelist m)) ->
  det_new x lang_of compile o1 o2 o3 m res = Ok dp ->
  (In w (stop_words_of (dp_stop dp) (dp_specific_stop dp) intent) <->
   dm_ignore_stop_words m = true /\ In w (rs_stop_words res) /\
   ~ (exists ws, In (intent, ws) (dm_stop_whitelist m) /\ In w ws)).
Proof.
  intros ND E. unfold det_new in E. bind_inv E. bind_inv E. inv E. cbn [dp_stop dp_specific_stop].
  set (stop := if dm_ignore_stop_words m then rs_stop_words res else []).
  assert (Hs : In w stop <-> dm_ignore_stop_words m = true /\ In w (rs_stop_words res)).
  { unfold stop. destruct (dm_ignore_stop_words m); simpl; intuition discriminate. }
  rewrite <- (and_assoc (dm_ignore_stop_words m = true)), <- Hs. unfold stop_words_of.
  assert (ND' : NoDup (hkeys (specific_stop_words stop (dm_stop_whitelist m)))).
  { unfold hkeys, specific_stop_words. rewrite map_map. simpl. exact ND. }
  assert (Eg : sget intent (reorder o2 (specific_stop_words stop (dm_stop_whitelist m)))
             = sget intent (specific_stop_words stop (dm_stop_whitelist m))).
  { symmetry. apply (hget_perm _ str_eqb_spec); auto. apply reorder_perm. }
  rewrite Eg. clear Eg. destruct (sget intent (specific_stop_words _ _)) as [ws|] eqn:G.
  - apply sget_In in G. unfold specific_stop_words in G. apply in_map_iff in G as ([i ws0] & Eq & Hi).
    simpl in Eq. inv Eq. rewrite filter_In, negb_true_iff, smem_false. split.
    + intros [H1 H2]. split; auto. intros (ws' & H3 & H4).
      assert (ws' = ws0); [|congruence].
      assert (A := sget_NoDup intent ws' _ ND H3). assert (B := sget_NoDup intent ws0 _ ND Hi). congruence.
    + intros [H1 H2]. split; auto. intros H3. apply H2. eauto.
  - apply sget_None in G. split; [|tauto]. intros H. split; auto. intros (ws & H1 & _).
    apply G. unfold hkeys, specific_stop_words. rewrite map_map. simpl.
    change intent with (fst (intent, ws)). apply in_map. exact H1.
Qed.
