(** Proofs about the features of the intent classifier. *)
From Coq Require Import String List NArith ZArith Bool Arith Lia Permutation.
From Verif Require Import Base Sorting F32 M_Types M_Utils M_Engine M_Det M_Feat S_Base S_Utils S_Det S_Rules S_Feat
  P_Base P_F32 P_Engine P_Utils P_Rules P_Prob P_Count.
Import ListNotations.

(** ** update_at *)
Lemma update_at_ok {A} (f : A -> A) i l :
  i < length l ->
  exists l', update_at f i l = Ok l' /\ length l' = length l /\
    forall k, nth_error l' k = if k =? i then option_map f (nth_error l k) else nth_error l k.
Proof.
  revert i. induction l as [|a l IH]; simpl; intros i H; [lia|].
  destruct i as [|i].
  - eexists. split; [reflexivity|]. split; auto. intros [|k]; reflexivity.
  - destruct (IH i) as (l' & E & L & N); [lia|]. simpl. rewrite E. simpl.
    eexists. split; [reflexivity|]. simpl. split; [lia|]. intros [|k]; simpl; auto.
Qed.

Lemma update_at_panic {A} (f : A -> A) i l : length l <= i -> update_at f i l = Panic.
Proof.
  revert i. induction l as [|a l IH]; simpl; intros i H; [destruct i; reflexivity|].
  destruct i; [lia|]. simpl. rewrite IH by lia. reflexivity.
Qed.

Lemma fold_panic {A B} (f : A -> B -> outcome B) l :
  fold_left (fun acc a => let* b := acc in f a b) l Panic = Panic.
Proof. induction l; simpl; auto. Qed.

Lemma nth_error_ext {A} (l m : list A) : (forall k, nth_error l k = nth_error m k) -> l = m.
Proof.
  revert m. induction l as [|a l IH]; intros [|b m] H; auto.
  - specialize (H 0). discriminate.
  - specialize (H 0). discriminate.
  - assert (H0 := H 0). simpl in H0. inv H0. f_equal. apply IH. intros k. exact (H (S k)).
Qed.

(** ** Counting *)
Fixpoint occ (i : nat) (idx : list nat) : nat :=
  match idx with [] => 0 | j :: r => if j =? i then S (occ i r) else occ i r end.

Lemma occ_occurrences v i words : occ i (word_indices v words) = occurrences v i words.
Proof.
  unfold word_indices. induction words as [|w r IH]; simpl; auto.
  destruct (sget w v) as [j|]; simpl; rewrite IH; reflexivity.
Qed.

Lemma occ_In i idx : In i idx <-> 0 < occ i idx.
Proof.
  induction idx as [|j r IH]; simpl; [split; [contradiction|lia]|].
  destruct (Nat.eqb_spec j i); [subst; split; auto; lia|]. rewrite <- IH. intuition.
Qed.

Definition bump (n : nat) (v : f32) : f32 := Nat.iter n (fun c => fadd c f1) v.

Lemma bump_S n v : bump n (fadd v f1) = fadd (bump n v) f1.
Proof. unfold bump. induction n; simpl; auto. rewrite IHn. reflexivity. Qed.

Lemma count_fold idx fs :
  (forall i, In i idx -> i < length fs) ->
  exists fs', fold_left (fun acc i => let* fs := acc in update_at (fun c => fadd c f1) i fs) idx (Ok fs) = Ok fs' /\
    length fs' = length fs /\
    forall k, nth_error fs' k = option_map (bump (occ k idx)) (nth_error fs k).
Proof.
  revert fs. induction idx as [|i idx IH]; simpl; intros fs H.
  - exists fs. split; auto. split; auto. intros k. destruct (nth_error fs k); reflexivity.
  - destruct (update_at_ok (fun c => fadd c f1) i fs) as (fs1 & E & L & N); [apply H; auto|].
    rewrite E. destruct (IH fs1) as (fs2 & E2 & L2 & N2).
    { intros j Hj. rewrite L. apply H. auto. }
    exists fs2. split; auto. split; [congruence|]. intros k. rewrite N2, N.
    rewrite Nat.eqb_sym. destruct (Nat.eqb_spec i k); auto.
    destruct (nth_error fs k); simpl; auto. f_equal. apply bump_S.
Qed.

Lemma list_max_ge l x : In x l -> x <= list_max l.
Proof.
  intros H. assert (F := proj1 (list_max_le l (list_max l)) (le_n _)).
  rewrite Forall_forall in F. auto.
Qed.

Lemma list_max_In l : l <> [] -> In (list_max l) l.
Proof.
  induction l as [|x l IH]; [congruence|]. intros _. simpl.
  destruct l as [|y l]; [left; simpl; lia|].
  destruct (Nat.max_spec x (list_max (y :: l))) as [[H ->]|[H ->]]; auto.
  right. apply IH. discriminate.
Qed.

Lemma vocabulary_size_spec v :
  match vocabulary_size v with
  | Ok n => exists i, n = S i /\ largest_index v i
  | Err _ => False
  | Panic => v = []
  end.
Proof.
  destruct v as [|e v]; [reflexivity|]. simpl vocabulary_size. cbv iota.
  exists (list_max (map snd (e :: v))). split; auto. split.
  - assert (In (list_max (map snd (e :: v))) (map snd (e :: v))) by (apply list_max_In; discriminate).
    apply in_map_iff in H as ((w & j) & E & H). simpl in E. subst j. exists w. exact H.
  - intros w j H. apply list_max_ge. apply in_map_iff. exists (w, j). auto.
Qed.

Lemma word_indices_bound v words n :
  largest_index v n -> forall i, In i (word_indices v words) -> i < S n.
Proof.
  intros [_ B] i H. unfold word_indices in H. apply In_filter_map in H as (w & _ & H).
  apply sget_In in H. apply B in H. lia.
Qed.

(** ** idf *)
Lemma idf_fold idf ks : forall fs, NoDup ks ->
  (forall i, In i ks -> i < length fs) ->
  match fold_left (fun acc i => let* fs := acc in
                    let* w := index idf i in update_at (fun c => fmul c w) i fs) ks (Ok fs) with
  | Ok fs' => (forall i, In i ks -> i < length idf) /\ length fs' = length fs /\
      forall k, nth_error fs' k =
                if memb Nat.eqb k ks
                then match nth_error fs k, nth_error idf k with Some c, Some w => Some (fmul c w) | _, _ => None end
                else nth_error fs k
  | Err _ => False
  | Panic => exists i, In i ks /\ length idf <= i
  end.
Proof.
  induction ks as [|i ks IH]; intros fs ND B.
  - simpl. repeat split; auto; contradiction.
  - inv ND. cbn [fold_left]. cbn [bind].
    destruct (index idf i) as [w|e|] eqn:Ei.
    + cbn [bind]. destruct (update_at_ok (fun c => fmul c w) i fs) as (fs1 & E & L & N); [apply B; left; auto|].
      rewrite E. specialize (IH fs1 H2).
      destruct (fold_left _ ks (Ok fs1)) as [fs2|e|].
      * destruct IH as (I1 & I2 & I3); [intros j Hj; rewrite L; apply B; right; auto|].
        apply index_ok in Ei. split; [|split].
        -- intros j [<-|Hj]; auto. apply nth_error_Some. congruence.
        -- congruence.
        -- intros k. rewrite I3, N. simpl. destruct (Nat.eqb_spec k i) as [->|K].
           ++ simpl. assert (memb Nat.eqb i ks = false) as ->.
              { destruct (memb Nat.eqb i ks) eqn:M; auto. apply memb_spec in M; [contradiction|apply Nat.eqb_eq]. }
              rewrite Ei. destruct (nth_error fs i); reflexivity.
           ++ simpl. reflexivity.
      * apply IH. intros j Hj. rewrite L. apply B. right. auto.
      * destruct IH as (j & J1 & J2); [intros j Hj; rewrite L; apply B; right; auto|].
        exists j. split; auto. right. auto.
    + exfalso. exact (index_not_err _ _ _ Ei).
    + cbn [bind]. rewrite (fold_panic (fun i fs => let* w := index idf i in update_at (fun c => fmul c w) i fs)).
      exists i. split; [left; auto|]. apply index_panic. exact Ei.
Qed.

(** ** The tf-idf vector *)
Lemma unique_nat_NoDup l : NoDup (unique Nat.eqb l).
Proof. apply unique_NoDup. apply Nat.eqb_eq. Qed.
Lemma unique_nat_In i l : In i (unique Nat.eqb l) <-> In i l.
Proof. rewrite unique_In; [tauto|apply Nat.eqb_eq]. Qed.

Lemma weighted_spec ord v idf words n :
  largest_index v n -> (Z.of_nat (length words) <= 2 ^ 24)%Z ->
  exists counts, count_words (S n) (word_indices v words) = Ok counts /\
  match apply_idf ord idf (word_indices v words) counts with
  | Ok raw => (forall i, 0 < occurrences v i words -> i < length idf) /\ length raw = S n /\
      forall i, i <= n -> exists x, nth_error raw i = Some x /\ raw_feature v idf words i x
  | Err _ => False
  | Panic => exists i, 0 < occurrences v i words /\ length idf <= i
  end.
Proof.
  intros LI LW. set (idx := word_indices v words).
  assert (B := word_indices_bound v words n LI). fold idx in B.
  destruct (count_fold idx (repeat f0 (S n))) as (cs & E & L & N).
  { intros i Hi. rewrite repeat_length. auto. }
  exists cs. split; [exact E|].
  rewrite repeat_length in L.
  unfold apply_idf.
  set (ks := reorder ord (unique Nat.eqb idx)).
  assert (ND : NoDup ks) by (eapply Permutation_NoDup; [apply reorder_perm|apply unique_nat_NoDup]).
  assert (MEM : forall i, In i ks <-> 0 < occurrences v i words).
  { intros i. unfold ks. rewrite reorder_In, unique_nat_In, occ_In. unfold idx.
    rewrite occ_occurrences. tauto. }
  assert (IS := idf_fold idf ks cs ND).
  destruct (fold_left _ ks (Ok cs)) as [raw|e|].
  - destruct IS as (I1 & I2 & I3).
    { intros i Hi. rewrite L. apply B. apply MEM in Hi. apply occ_In. unfold idx.
      rewrite occ_occurrences. exact Hi. }
    split; [|split].
    + intros i Hi. apply I1. apply MEM. exact Hi.
    + congruence.
    + intros i Hi.
      assert (Hc : nth_error cs i = Some (f32_of_nat (occurrences v i words))).
      { rewrite N. rewrite nth_error_repeat by lia. simpl. f_equal. unfold idx. rewrite occ_occurrences.
        apply bump_exact. assert (occurrences v i words <= length words); [|lia].
        clear. induction words as [|w r IH]; simpl; auto. destruct (sget w v) as [j|]; [destruct (j =? i)|]; lia. }
      rewrite I3, Hc.
      destruct (memb Nat.eqb i ks) eqn:M.
      * apply memb_spec in M; [|apply Nat.eqb_eq].
        assert (i < length idf) by (apply I1; exact M).
        destruct (nth_error idf i) as [w|] eqn:Ew; [|apply nth_error_None in Ew; lia].
        eexists. split; [reflexivity|]. right. split; [apply MEM; exact M|]. eauto.
      * assert (occurrences v i words = 0).
        { destruct (occurrences v i words) eqn:O; auto. exfalso.
          assert (In i ks) by (apply MEM; lia).
          apply (memb_spec Nat.eqb Nat.eqb_eq) in H. congruence. }
        eexists. split; [reflexivity|]. left. split; auto. rewrite H. reflexivity.
  - apply IS. intros i Hi. rewrite L. apply B. apply MEM in Hi. apply occ_In. unfold idx.
    rewrite occ_occurrences. exact Hi.
  - destruct IS as (i & I1 & I2).
    { intros i Hi. rewrite L. apply B. apply MEM in Hi. apply occ_In. unfold idx.
      rewrite occ_occurrences. exact Hi. }
    exists i. split; auto. apply MEM. exact I1.
Qed.

Lemma l2_normalize_divisor raw : l2_normalize raw = map (fun c => fdiv c (divisor raw)) raw.
Proof. reflexivity. Qed.

Lemma divisor_positive raw : flt f0 (divisor raw) = true.
Proof. unfold divisor. cbv zeta. set (m := fsqrt _). destruct (flt f0 m) eqn:E; [exact E|reflexivity]. Qed.

Lemma tfidf_spec x ngrams ord tv utt words n :
  tfidf_words x ngrams tv utt = Ok words ->
  largest_index (tv_vocab tv) n -> (Z.of_nat (length words) <= 2 ^ 24)%Z ->
  match tfidf_transform x ngrams ord tv utt with
  | Ok v => exists raw, length raw = S n /\
      (forall i, i <= n -> exists x, nth_error raw i = Some x /\ raw_feature (tv_vocab tv) (tv_idf tv) words i x) /\
      v = map (fun c => fdiv c (divisor raw)) raw /\ flt f0 (divisor raw) = true
  | Err _ => False
  | Panic => exists i, 0 < occurrences (tv_vocab tv) i words /\ length (tv_idf tv) <= i
  end.
Proof.
  intros HW LI LW. unfold tfidf_transform. rewrite HW. cbn [bind].
  assert (VS := vocabulary_size_spec (tv_vocab tv)).
  destruct (vocabulary_size (tv_vocab tv)) as [sz|e|].
  - destruct VS as (n' & -> & LI').
    assert (n' = n) as ->.
    { destruct LI as [(w & A) B], LI' as [(w' & A') B']. apply B in A'. apply B' in A. lia. }
    cbn [bind].
    destruct (weighted_spec ord _ (tv_idf tv) words n LI LW) as (cs & -> & H). cbn [bind].
    destruct (apply_idf ord (tv_idf tv) _ cs) as [raw|e|]; cbn [bind]; auto.
    destruct H as (H1 & H2 & H3). exists raw. repeat split; auto. apply divisor_positive.
  - contradiction.
  - exfalso. destruct LI as [(w & A) _]. rewrite VS in A. contradiction.
Qed.

Lemma tfidf_empty_vocabulary x ngrams ord tv utt words :
  tfidf_words x ngrams tv utt = Ok words -> tv_vocab tv = [] ->
  tfidf_transform x ngrams ord tv utt = Panic.
Proof. intros H V. unfold tfidf_transform. rewrite H, V. reflexivity. Qed.

Lemma apply_idf_order o o' v idf words n cs :
  largest_index v n -> length cs = S n ->
  apply_idf o idf (word_indices v words) cs = apply_idf o' idf (word_indices v words) cs.
Proof.
  intros LI L. unfold apply_idf. set (idx := word_indices v words).
  assert (B := word_indices_bound v words n LI). fold idx in B.
  set (u := unique Nat.eqb idx).
  assert (ND : forall o, NoDup (reorder o u)).
  { intros. eapply Permutation_NoDup; [apply reorder_perm|apply unique_nat_NoDup]. }
  assert (BB : forall o i, In i (reorder o u) -> i < length cs).
  { intros o0 i Hi. rewrite reorder_In in Hi. unfold u in Hi. rewrite unique_nat_In in Hi. rewrite L. auto. }
  assert (A := idf_fold idf (reorder o u) cs (ND o) (BB o)).
  assert (A' := idf_fold idf (reorder o' u) cs (ND o') (BB o')).
  destruct (fold_left _ (reorder o u) (Ok cs)) as [r|e|], (fold_left _ (reorder o' u) (Ok cs)) as [r'|e'|];
    try contradiction; auto.
  - f_equal. destruct A as (_ & _ & A), A' as (_ & _ & A'). apply nth_error_ext. intros k.
    rewrite A, A'. replace (memb Nat.eqb k (reorder o' u)) with (memb Nat.eqb k (reorder o u)); auto.
    apply existsb_perm. transitivity u; [apply Permutation_sym|]; apply reorder_perm.
  - exfalso. destruct A as (A & _), A' as (i & I1 & I2). rewrite reorder_In in I1.
    assert (i < length idf) by (apply A; rewrite reorder_In; exact I1). lia.
  - exfalso. destruct A' as (A' & _), A as (i & I1 & I2). rewrite reorder_In in I1.
    assert (i < length idf) by (apply A'; rewrite reorder_In; exact I1). lia.
Qed.

Lemma tfidf_order x ngrams o o' tv utt :
  tfidf_transform x ngrams o tv utt = tfidf_transform x ngrams o' tv utt.
Proof.
  unfold tfidf_transform. destruct (tfidf_words x ngrams tv utt) as [words|e|]; auto. cbn [bind].
  assert (VS := vocabulary_size_spec (tv_vocab tv)).
  destruct (vocabulary_size (tv_vocab tv)) as [sz|e|]; auto. destruct VS as (n & -> & LI). cbn [bind].
  destruct (count_fold (word_indices (tv_vocab tv) words) (repeat f0 (S n))) as (cs & E & L & _).
  { intros i Hi. rewrite repeat_length. apply (word_indices_bound _ words n LI i Hi). }
  unfold count_words. rewrite E. cbn [bind]. rewrite repeat_length in L.
  rewrite (apply_idf_order o o' _ _ words n cs LI L). reflexivity.
Qed.

(** A text without known words has the null vector. *)
Lemma tfidf_no_words x ngrams ord tv utt words n :
  tfidf_words x ngrams tv utt = Ok words -> largest_index (tv_vocab tv) n ->
  (forall w i, In w words -> sget w (tv_vocab tv) <> Some i) ->
  tfidf_transform x ngrams ord tv utt = Ok (repeat f0 (S n)).
Proof.
  intros HW LI NW. unfold tfidf_transform. rewrite HW. cbn [bind].
  assert (VS := vocabulary_size_spec (tv_vocab tv)).
  destruct (vocabulary_size (tv_vocab tv)) as [sz|e|].
  - destruct VS as (n' & -> & LI').
    assert (n' = n) as ->.
    { destruct LI as [(w & A) B], LI' as [(w' & A') B']. apply B in A'. apply B' in A. lia. }
    assert (E : word_indices (tv_vocab tv) words = []).
    { unfold word_indices. clear - NW. induction words as [|w r IH]; auto. simpl.
      destruct (sget w (tv_vocab tv)) as [i|] eqn:E.
      - exfalso. apply (NW w i); auto. left. auto.
      - apply IH. intros. apply NW. right. auto. }
    rewrite E. cbn [bind]. unfold count_words. cbn [fold_left bind].
    unfold apply_idf. replace (reorder ord (unique Nat.eqb [])) with ([] : list nat).
    2:{ symmetry. apply Permutation_nil. apply (reorder_perm ord (unique Nat.eqb [])). }
    cbn [fold_left bind]. f_equal. unfold l2_normalize.
    assert (Z : forall k a, a = f0 -> fold_left (fun n v => fadd n (fmul v v)) (repeat f0 k) a = f0).
    { induction k; simpl; intros a ->; auto. }
    rewrite Z by auto. change (flt f0 (fsqrt f0)) with false. cbv iota.
    generalize (S n). induction n0; [reflexivity|]. cbn [repeat map]. rewrite IHn0. reflexivity.
  - contradiction.
  - exfalso. destruct LI as [(w & A) _]. rewrite VS in A. contradiction.
Qed.

(** ** Order of strings *)
Lemma str_lt_irrefl s : ~ str_lt s s.
Proof. induction s as [|c s IH]; intros H; inv H; [lia|auto]. Qed.

Lemma str_leb_lt a b : str_leb a b = true <-> str_lt a b \/ a = b.
Proof.
  revert b. induction a as [|c a IH]; intros [|d b]; simpl.
  - split; auto.
  - split; auto. intros _. left. constructor.
  - split; [discriminate|]. intros [H|H]; inv H.
  - destruct (N.eqb_spec c d) as [->|N].
    + rewrite IH. split.
      * intros [H|H]; [left; apply lt_tail; auto|right; congruence].
      * intros [H|H]; [inv H; [lia|auto]|inv H; auto].
    + rewrite N.ltb_lt. split.
      * intros. left. constructor. auto.
      * intros [H|H]; inv H; auto; congruence.
Qed.

Lemma str_ltb_lt a b : str_ltb a b = true <-> str_lt a b.
Proof.
  unfold str_ltb. rewrite andb_true_iff, negb_true_iff, str_leb_lt, str_eqb_neq. split.
  - intros [[H|H] N]; auto. contradiction.
  - intros H. split; auto. intros ->. exact (str_lt_irrefl _ H).
Qed.

Lemma str_lt_total a b : str_lt a b \/ a = b \/ str_lt b a.
Proof.
  revert b. induction a as [|c a IH]; intros [|d b].
  - auto.
  - left. constructor.
  - right. right. constructor.
  - destruct (N.lt_total c d) as [H|[->|H]].
    + left. constructor. auto.
    + destruct (IH b) as [H|[->|H]]; auto.
      * left. apply lt_tail. auto.
      * right. right. apply lt_tail. auto.
    + right. right. constructor. auto.
Qed.

Lemma str_lt_asym a b : str_lt a b -> ~ str_lt b a.
Proof.
  intros H. induction H; intros K; inv K; try lia; auto.
Qed.

(** ** Pairs *)
Lemma pair_eqb_spec a b : pair_eqb a b = true <-> a = b.
Proof.
  destruct a, b. unfold pair_eqb. simpl. rewrite andb_true_iff, !str_eqb_spec.
  split; [intros [-> ->]; auto|inversion 1; auto].
Qed.

Lemma keeps_spec cv t :
  negb (cv_filter_stop cv && smem t (rs_stop_words (cv_res cv)))
  && match cv_unknown cv with Some u => negb (str_eqb t u) | None => true end = true <-> counts cv t.
Proof.
  unfold counts. rewrite andb_true_iff, negb_true_iff, andb_false_iff, smem_false.
  destruct (cv_filter_stop cv), (cv_unknown cv) as [u|]; try rewrite negb_true_iff, str_eqb_neq;
    intuition congruence.
Qed.

Lemma counted_kept cv l m : counted cv l m <-> m = kept_tokens cv l.
Proof.
  split.
  - induction 1; simpl; auto.
    + apply keeps_spec in H. unfold kept_tokens. simpl. rewrite H. f_equal. exact IHcounted.
    + unfold kept_tokens. simpl. rewrite <- keeps_spec in H. apply not_true_is_false in H. rewrite H. exact IHcounted.
  - intros ->. induction l as [|t l IH]; simpl; [constructor|].
    unfold kept_tokens. simpl. destruct (negb _ && _) eqn:E.
    + constructor; auto. apply keeps_spec. exact E.
    + constructor; auto. rewrite <- keeps_spec, E. discriminate.
Qed.

Lemma follows_cons w t words a b :
  follows w (t :: words) a b <->
  (t = a /\ In b (match w with Some n => firstn n words | None => words end)) \/ follows w words a b.
Proof.
  unfold follows. split.
  - intros (i & j & L & W & A & B). destruct i as [|i].
    + left. simpl in A. inv A. split; auto. destruct j as [|j]; [lia|]. simpl in B.
      destruct w as [n|].
      * apply firstn_In_nth. exists j. specialize (W n eq_refl). split; [lia|auto].
      * eapply nth_error_In; eauto.
    + right. destruct j as [|j]; [lia|]. exists i, j. simpl in *. repeat split; auto; try lia.
  - intros [[<- H]|(i & j & L & W & A & B)].
    + destruct w as [n|].
      * apply firstn_In_nth in H as (j & J & B). exists 0, (S j). simpl. repeat split; auto; [lia|].
        intros n' E. inv E. lia.
      * apply In_nth_error in H as [j B]. exists 0, (S j). simpl. repeat split; auto; [lia|discriminate].
    + exists (S i), (S j). simpl. repeat split; auto; try lia.
Qed.

Lemma all_pairs_spec ko w words p :
  In p (all_pairs ko w words) <->
  exists t o, follows w words t o /\ p = (if ko || str_ltb t o then (t, o) else (o, t)).
Proof.
  induction words as [|t words IH]; simpl.
  - split; [contradiction|]. intros (t & o & (i & j & _ & _ & A & _) & _). destruct i; discriminate.
  - rewrite in_app_iff, IH. unfold pairs_from. rewrite in_map_iff. split.
    + intros [(o & E & H)|(t' & o & F & E)].
      * exists t, o. split; [|auto]. apply follows_cons. left. auto.
      * exists t', o. split; auto. apply follows_cons. auto.
    + intros (t' & o & F & E). apply follows_cons in F as [[<- H]|F].
      * left. exists o. auto.
      * right. eauto.
Qed.

Lemma pairs_spec ord cv tokens words a b :
  counted cv tokens words ->
  (In (a, b) (extract_word_pairs ord cv tokens) <-> pair_present cv words a b).
Proof.
  intros C. apply counted_kept in C. subst words. unfold extract_word_pairs.
  rewrite reorder_In, (unique_In _ pair_eqb_spec), all_pairs_spec. unfold pair_present.
  destruct (cv_keep_order cv); simpl.
  - split.
    + intros (t & o & F & E). inv E. exact F.
    + intros F. exists a, b. auto.
  - split.
    + intros (t & o & F & E). destruct (str_ltb t o) eqn:L.
      * inv E. apply str_ltb_lt in L. auto.
      * inv E. split; auto. destruct (str_lt_total t o) as [H|[H|H]]; auto.
        apply str_ltb_lt in H. congruence.
    + intros [O [F|F]].
      * exists a, b. split; auto. destruct (str_ltb a b) eqn:L; auto.
        destruct O as [O| ->]; auto. apply str_ltb_lt in O. congruence.
      * exists b, a. split; auto. destruct (str_ltb b a) eqn:L; auto.
        apply str_ltb_lt in L. destruct O as [O| ->]; auto. exfalso. exact (str_lt_asym _ _ O L).
Qed.

Lemma mark_fold pairs ps : forall fs,
  match fold_left (fun acc p => let* fs := acc in
                     match hget pair_eqb p pairs with
                     | Some i => update_at (fun _ => f1) i fs
                     | None => Ok fs
                     end) ps (Ok fs) with
  | Ok fs' => length fs' = length fs /\
      (forall p k, In p ps -> hget pair_eqb p pairs = Some k -> k < length fs) /\
      forall k, k < length fs ->
        ((exists p, In p ps /\ hget pair_eqb p pairs = Some k) -> nth_error fs' k = Some f1) /\
        (~ (exists p, In p ps /\ hget pair_eqb p pairs = Some k) -> nth_error fs' k = nth_error fs k)
  | Err _ => False
  | Panic => exists p k, In p ps /\ hget pair_eqb p pairs = Some k /\ length fs <= k
  end.
Proof.
  induction ps as [|p ps IH]; intros fs.
  - cbn [fold_left]. split; auto. split; [contradiction|]. intros k _. split; auto.
    intros (p & [] & _).
  - cbn [fold_left bind]. destruct (hget pair_eqb p pairs) as [i|] eqn:E.
    + destruct (le_lt_dec (length fs) i) as [L|L].
      * rewrite update_at_panic by auto.
        rewrite (fold_panic (fun p fs => match hget pair_eqb p pairs with
                     | Some i => update_at (fun _ => f1) i fs | None => Ok fs end)).
        exists p, i. simpl. auto.
      * destruct (update_at_ok (fun _ => f1) i fs L) as (fs1 & E1 & L1 & N1). rewrite E1.
        specialize (IH fs1). rewrite L1 in IH.
        destruct (fold_left _ ps (Ok fs1)) as [fs2|e|]; auto.
        -- destruct IH as (I1 & I2 & I3). split; [congruence|]. split.
           ++ intros q k [<-|Hq] Hk; eauto. congruence.
           ++ intros k Hk. destruct (I3 k Hk) as [J1 J2].
              assert (D : {exists q, In q ps /\ hget pair_eqb q pairs = Some k} +
                          {~ exists q, In q ps /\ hget pair_eqb q pairs = Some k}).
              { destruct (existsb (fun q => match hget pair_eqb q pairs with Some k' => k' =? k | None => false end) ps) eqn:X.
                - left. apply existsb_exists in X as (q & Hq & X). destruct (hget pair_eqb q pairs) eqn:G; [|discriminate].
                  apply Nat.eqb_eq in X. subst. eauto.
                - right. intros (q & Hq & G). assert (existsb (fun q => match hget pair_eqb q pairs with Some k' => k' =? k | None => false end) ps = true); [|congruence].
                  apply existsb_exists. exists q. split; auto. rewrite G. apply Nat.eqb_refl. }
              split.
              ** intros (q & [<-|Hq] & G).
                 --- destruct D as [D|D]; auto. rewrite J2 by auto. rewrite N1.
                     assert (k = i) by congruence. subst k. rewrite Nat.eqb_refl.
                     destruct (nth_error fs i) eqn:NE; auto. apply nth_error_None in NE. lia.
                 --- apply J1. eauto.
              ** intros NQ. rewrite J2.
                 --- rewrite N1. destruct (Nat.eqb_spec k i); auto. subst. exfalso. apply NQ. exists p. simpl. auto.
                 --- intros (q & Hq & G). apply NQ. exists q. simpl. auto.
        -- destruct IH as (q & k & Hq & G & B). exists q, k. simpl. auto.
    + specialize (IH fs). destruct (fold_left _ ps (Ok fs)) as [fs2|e|]; auto.
      * destruct IH as (I1 & I2 & I3). split; auto. split.
        -- intros q k [<-|Hq] Hk; eauto. congruence.
        -- intros k Hk. destruct (I3 k Hk) as [J1 J2]. split.
           ++ intros (q & [<-|Hq] & G); [congruence|]. apply J1. eauto.
           ++ intros NQ. apply J2. intros (q & Hq & G). apply NQ. exists q. simpl. auto.
      * destruct IH as (q & k & Hq & G & B). exists q, k. simpl. auto.
Qed.

Lemma cooc_new_pairs x lo m res cv :
  cooc_new x lo m res = Ok cv ->
  cv_pairs cv = hcollect pair_eqb (map (fun ip => (snd ip, fst ip)) (cm_pairs m)) /\
  NoDup (hkeys (cv_pairs cv)).
Proof.
  unfold cooc_new. intros H. bind_inv H. bind_inv H. inv H. simpl. split; auto.
  apply hcollect_NoDup. apply pair_eqb_spec.
Qed.

Lemma good_pairs_id pairs : good_pairs pairs ->
  hcollect pair_eqb (map (fun ip : nat * (str * str) => (snd ip, fst ip)) pairs) = map (fun ip => (snd ip, fst ip)) pairs.
Proof.
  intros (_ & ND & _). apply hcollect_NoDup_id; [apply pair_eqb_spec|].
  unfold hkeys. rewrite map_map. simpl. exact ND.
Qed.

Lemma cooc_spec x lo ord m res cv utt tokens words :
  cooc_new x lo m res = Ok cv -> good_pairs (cm_pairs m) ->
  cooc_tokens x cv utt = Ok tokens -> counted cv tokens words ->
  exists v, cooc_transform x ord cv utt = Ok v /\ length v = length (cm_pairs m) /\
    forall k a b, In (k, (a, b)) (cm_pairs m) ->
      (pair_present cv words a b -> nth_error v k = Some f1) /\
      (~ pair_present cv words a b -> nth_error v k = Some f0).
Proof.
  intros HN GP HT HC. apply cooc_new_pairs in HN as [HP ND].
  rewrite (good_pairs_id _ GP) in HP.
  unfold cooc_transform. rewrite HT. cbn [bind]. unfold mark_pairs.
  assert (M := mark_fold (cv_pairs cv) (extract_word_pairs ord cv tokens) (repeat f0 (length (cv_pairs cv)))).
  rewrite repeat_length in M.
  assert (LEN : length (cv_pairs cv) = length (cm_pairs m)) by (rewrite HP, map_length; reflexivity).
  assert (GET : forall k a b, hget pair_eqb (a, b) (cv_pairs cv) = Some k <-> In (k, (a, b)) (cm_pairs m)).
  { intros k a b. split.
    - intros G. apply (hget_In _ pair_eqb_spec) in G. rewrite HP in G.
      apply in_map_iff in G as ((k' & p) & E & G). simpl in E. inv E. exact G.
    - intros G. apply (hget_NoDup _ pair_eqb_spec); auto. rewrite HP.
      apply in_map_iff. exists (k, (a, b)). auto. }
  destruct GP as (NK & NP & B).
  destruct (fold_left _ _ _) as [v|e|].
  - destruct M as (M1 & M2 & M3). exists v. split; auto. split; [congruence|].
    intros k a b Hk.
    assert (BK : k < length (cv_pairs cv)).
    { rewrite LEN. apply B. apply in_map_iff. exists (k, (a, b)). auto. }
    destruct (M3 k BK) as [J1 J2]. split.
    + intros P. apply J1. exists (a, b). split; [|apply GET; auto].
      apply (pairs_spec ord cv tokens words); auto.
    + intros NPr. rewrite J2; [apply nth_error_repeat; auto|].
      intros ((a' & b') & Hp & G). apply GET in G.
      assert (E : (a', b') = (a, b)).
      { apply in_split in Hk as (l1 & l2 & Hk). rewrite Hk in G, NK. rewrite map_app in NK. simpl in NK.
        apply NoDup_remove_2 in NK. apply in_app_iff in G. destruct G as [G|[G|G]].
        - exfalso. apply NK. apply in_app_iff. left. apply in_map_iff. exists (k, (a', b')). auto.
        - congruence.
        - exfalso. apply NK. apply in_app_iff. right. apply in_map_iff. exists (k, (a', b')). auto. }
      inv E. apply NPr. apply (pairs_spec ord cv tokens words); auto.
  - contradiction.
  - exfalso. destruct M as ((a & b) & k & Hp & G & L). apply GET in G.
    assert (k < length (cm_pairs m)) by (apply B; apply in_map_iff; exists (k, (a, b)); auto). lia.
Qed.

Lemma cooc_panic_iff x lo ord m res cv utt tokens words :
  cooc_new x lo m res = Ok cv ->
  cooc_tokens x cv utt = Ok tokens -> counted cv tokens words ->
  (cooc_transform x ord cv utt = Panic <->
   exists a b k, In ((a, b), k) (cv_pairs cv) /\ pair_present cv words a b /\ length (cv_pairs cv) <= k).
Proof.
  intros HN HT HC. apply cooc_new_pairs in HN as [_ ND].
  unfold cooc_transform. rewrite HT. cbn [bind]. unfold mark_pairs.
  assert (M := mark_fold (cv_pairs cv) (extract_word_pairs ord cv tokens) (repeat f0 (length (cv_pairs cv)))).
  rewrite repeat_length in M.
  destruct (fold_left _ _ _) as [v|e|].
  - split; [discriminate|]. intros (a & b & k & H & P & L). exfalso.
    destruct M as (_ & M & _).
    assert (k < length (cv_pairs cv)); [|lia].
    apply (M (a, b)); [apply (pairs_spec ord cv tokens words); auto|].
    apply (hget_NoDup _ pair_eqb_spec); auto.
  - contradiction.
  - split; auto. intros _. destruct M as ((a & b) & k & Hp & G & L).
    exists a, b, k. split; [apply (hget_In _ pair_eqb_spec); auto|]. split; auto.
    apply (pairs_spec ord cv tokens words); auto.
Qed.

Lemma cooc_order x lo o o' m res cv utt :
  cooc_new x lo m res = Ok cv -> cooc_transform x o cv utt = cooc_transform x o' cv utt.
Proof.
  intros HN. unfold cooc_transform. destruct (cooc_tokens x cv utt) as [tokens|e|] eqn:HT; auto.
  cbn [bind]. unfold mark_pairs.
  assert (EQ : forall p, In p (extract_word_pairs o cv tokens) <-> In p (extract_word_pairs o' cv tokens)).
  { intros p. unfold extract_word_pairs. rewrite !reorder_In. tauto. }
  assert (M := mark_fold (cv_pairs cv) (extract_word_pairs o cv tokens) (repeat f0 (length (cv_pairs cv)))).
  assert (M' := mark_fold (cv_pairs cv) (extract_word_pairs o' cv tokens) (repeat f0 (length (cv_pairs cv)))).
  destruct (fold_left _ (extract_word_pairs o cv tokens) _) as [v|e|],
           (fold_left _ (extract_word_pairs o' cv tokens) _) as [v'|e'|]; try contradiction; auto.
  - f_equal. destruct M as (L & _ & M), M' as (L' & _ & M'). apply nth_error_ext. intros k.
    destruct (le_lt_dec (length v) k) as [K|K].
    + rewrite (proj2 (nth_error_None v k)) by auto. rewrite (proj2 (nth_error_None v' k)) by lia. reflexivity.
    + assert (K' : k < length (repeat f0 (length (cv_pairs cv)))) by lia.
      destruct (M k K') as [A1 A2], (M' k K') as [B1 B2].
      destruct (existsb (fun q => match hget pair_eqb q (cv_pairs cv) with Some k' => k' =? k | None => false end)
                        (extract_word_pairs o cv tokens)) eqn:X.
      * apply existsb_exists in X as (q & Hq & X). destruct (hget pair_eqb q (cv_pairs cv)) as [k'|] eqn:G; [|discriminate].
        apply Nat.eqb_eq in X. subst k'. rewrite A1, B1; eauto. exists q. split; auto. apply EQ. auto.
      * assert (NX : forall q, In q (extract_word_pairs o cv tokens) -> hget pair_eqb q (cv_pairs cv) <> Some k).
        { intros q Hq G. assert (existsb (fun q => match hget pair_eqb q (cv_pairs cv) with Some k' => k' =? k | None => false end)
                        (extract_word_pairs o cv tokens) = true); [|congruence].
          apply existsb_exists. exists q. split; auto. rewrite G. apply Nat.eqb_refl. }
        rewrite A2, B2; auto.
        -- intros (q & Hq & G). apply (NX q); auto. apply EQ. auto.
        -- intros (q & Hq & G). apply (NX q); auto.
  - exfalso. destruct M as (_ & M & _), M' as (p & k & P1 & P2 & P3).
    assert (K := M p k (proj2 (EQ p) P1) P2). lia.
  - exfalso. destruct M' as (_ & M' & _), M as (p & k & P1 & P2 & P3).
    assert (K := M' p k (proj1 (EQ p) P1) P2). lia.
Qed.

(** ** Both *)
Lemma featurize_spec x ngrams o1 o2 fz input :
  featurize x ngrams o1 o2 fz input =
  match tfidf_transform x ngrams id_order (fz_tfidf fz) input, fz_cooc fz with
  | Ok fs, None => Ok fs
  | Ok fs, Some cv => match cooc_transform x o2 cv input with
                      | Ok cs => Ok (fs ++ cs) | Err e => Err e | Panic => Panic end
  | Err e, _ => Err e
  | Panic, _ => Panic
  end.
Proof.
  unfold featurize. rewrite (tfidf_order x ngrams o1 id_order).
  destruct (tfidf_transform x ngrams id_order (fz_tfidf fz) input); simpl; auto.
Qed.

Lemma join_nil (l : list str) : join [] l = concat l.
Proof. induction l as [|a [|b l] IH]; [reflexivity|cbn; rewrite app_nil_r; reflexivity|]. cbn [join concat] in *. rewrite IH. reflexivity. Qed.
Lemma entity_word_builtin x l k : entity_word x l $"builtinentityfeature" k = builtin_feature_name x l k.
Proof. unfold entity_word, builtin_feature_name. rewrite join_nil. reflexivity. Qed.
Lemma entity_word_custom x l k : entity_word x l $"entityfeature" k = custom_feature_name x l k.
Proof. unfold entity_word, custom_feature_name. rewrite join_nil. reflexivity. Qed.

Lemma words_spec x ngrams tv utt words :
  tfidf_words x ngrams tv utt = Ok words ->
  let tokens := x_tokenize_light x (tv_lang tv) utt in
  let base := map (fun t => match tv_stemmer tv with
                            | Some stem => stem (x_normalize x t)
                            | None => x_normalize x t end) tokens in
  exists bes ces,
    rs_builtin (tv_res tv) utt (Some (tv_scope tv)) true 0 = Ok bes /\
    rs_custom (tv_res tv) (join [space] base) None 0 = Ok ces /\
    Permutation words
      (base ++ map (fun e => entity_word x (tv_lang tv) $"builtinentityfeature" (be_kind e)) bes
            ++ map (fun e => entity_word x (tv_lang tv) $"entityfeature" (ce_entity e)) ces
            ++ match tv_clusterer tv with
               | None => []
               | Some cluster => filter_map (fun g => cluster (x_lower x g)) (ngrams tokens (length tokens))
               end).
Proof.
  unfold tfidf_words. intros H. cbv zeta.
  assert (B : normalize_stem x (tv_stemmer tv) (x_tokenize_light x (tv_lang tv) utt) =
              map (fun t => match tv_stemmer tv with
                            | Some stem => stem (x_normalize x t)
                            | None => x_normalize x t end) (x_tokenize_light x (tv_lang tv) utt)).
  { unfold normalize_stem. destruct (tv_stemmer tv); reflexivity. }
  rewrite B in H. bind_inv H. bind_inv H. inv H. exists a, a0. split; auto. split; auto.
  apply Permutation_app_head. apply Permutation_app.
  - erewrite (map_ext (fun e => entity_word _ _ _ (be_kind e))); [apply Permutation_sym, isort_perm|].
    intros e. apply entity_word_builtin.
  - erewrite (map_ext (fun e => entity_word _ _ _ (ce_entity e))); [|intros e; apply entity_word_custom].
    apply Permutation_app_head. destruct (tv_clusterer tv); auto.
    unfold word_clusters. apply Permutation_sym, isort_perm.
Qed.

(** ** Model files *)
Lemma ok_or_inv {A} e (o : option A) a : ok_or e o = Ok a <-> o = Some a.
Proof. destruct o; cbn; split; intros H; inv H; reflexivity. Qed.
Lemma known_kinds_mapM x names ks :
  mapM (fun e => ok_or EOther (x_kind_of_identifier x e)) names = Ok ks <-> known_kinds x names ks.
Proof.
  rewrite mapM_ok_Forall2. unfold known_kinds. split; intros H; induction H; constructor; auto; eapply ok_or_inv; eassumption.
Qed.
Lemma kinds_mapM_total x names :
  (exists ks, mapM (fun e => ok_or EOther (x_kind_of_identifier x e)) names = Ok ks) \/
  mapM (fun e => ok_or EOther (x_kind_of_identifier x e)) names = Err EOther.
Proof.
  induction names as [|n names IH]; cbn [mapM]; [eauto|]. destruct (x_kind_of_identifier x n); cbn [ok_or bind]; [|auto].
  destruct IH as [(ks & ->)| ->]; cbn [bind]; eauto.
Qed.

Lemma tfidf_new_spec x lo m res tv : tfidf_new x lo m res = Ok tv <-> vectorizer_of x lo m res tv.
Proof.
  unfold tfidf_new, vectorizer_of. split.
  - intros H. bind_inv H. bind_inv H. bind_inv H. bind_inv H. injection H as <-.
    cbn [tv_lang tv_scope tv_vocab tv_idf tv_res tv_stemmer tv_clusterer].
    split; [eapply ok_or_inv; eassumption|]. split; [apply known_kinds_mapM; assumption|]. do 3 (split; [reflexivity|]). split.
    + destruct (tm_stemming m); [|injection E2 as <-; reflexivity]. bind_inv E2. injection E2 as <-.
      exists a3. split; [eapply ok_or_inv; eassumption|reflexivity].
    + destruct (tm_clusters m); [|injection E0 as <-; reflexivity]. bind_inv E0. injection E0 as <-.
      exists a3. split; [eapply ok_or_inv; eassumption|reflexivity].
  - destruct tv as [sc vo idf cl st l re]. cbn [tv_lang tv_scope tv_vocab tv_idf tv_res tv_stemmer tv_clusterer].
    intros (H1 & H2 & -> & -> & -> & H3 & H4). rewrite H1. cbn [ok_or bind].
    apply known_kinds_mapM in H2.
    destruct (tm_clusters m) as [n|]; [destruct H4 as (c & H4 & ->); rewrite H4; cbn [ok_or bind]|subst cl; cbn [bind]];
      rewrite H2; cbn [bind];
      (destruct (tm_stemming m); [destruct H3 as (s & H3 & ->); rewrite H3; reflexivity|subst st; reflexivity]).
Qed.

Lemma tfidf_new_total x lo m res : (exists tv, tfidf_new x lo m res = Ok tv) \/ tfidf_new x lo m res = Err EOther.
Proof.
  unfold tfidf_new. destruct (lo _); cbn [ok_or bind]; [|auto].
  destruct (tm_clusters m) as [n|]; [destruct (sget n _); cbn [ok_or bind]; [|auto]|cbn [bind]];
    (destruct (kinds_mapM_total x (tm_scope m)) as [(ks & ->)| ->]; cbn [bind]; [|auto]);
    (destruct (tm_stemming m); [destruct (rs_stemmer res); cbn [ok_or bind]; eauto|cbn [bind]; eauto]).
Qed.

Lemma cooc_new_spec x lo m res cv : cooc_new x lo m res = Ok cv -> pairs_of x lo m res cv.
Proof.
  unfold cooc_new, pairs_of. intros H. bind_inv H. bind_inv H. injection H as <-.
  cbn [cv_lang cv_scope cv_filter_stop cv_window cv_keep_order cv_unknown cv_res cv_pairs].
  split; [eapply ok_or_inv; eassumption|]. split; [apply known_kinds_mapM; assumption|]. do 5 (split; [reflexivity|]).
  intros ND x0 y k. rewrite hcollect_NoDup_id; [|apply pair_eqb_spec|unfold hkeys; rewrite map_map; exact ND].
  rewrite in_map_iff. split.
  - intros ([k' p] & E' & I). cbn [fst snd] in E'. injection E' as -> ->. exact I.
  - intros I. exists (k, (x0, y)). auto.
Qed.

Lemma cooc_new_total x lo m res :
  (exists cv, cooc_new x lo m res = Ok cv) \/
  (cooc_new x lo m res = Err EOther /\ (lo (cm_language m) = None \/ forall ks, ~ known_kinds x (cm_scope m) ks)).
Proof.
  unfold cooc_new. destruct (kinds_mapM_total x (cm_scope m)) as [(ks & K)|K]; rewrite K; cbn [bind].
  - destruct (lo _); cbn [ok_or bind]; eauto.
  - right. split; [reflexivity|]. right. intros ks H. apply known_kinds_mapM in H. congruence.
Qed.

Lemma cooc_text x cv utt tokens :
  builtin_parser_ok (rs_builtin (cv_res cv)) utt -> custom_parser_ok (rs_custom (cv_res cv)) utt -> (Z.of_nat (length utt) < 2 ^ 31)%Z ->
  cooc_tokens x cv utt = Ok tokens ->
  exists enriched, enriched_text x cv utt enriched /\ tokens = x_tokenize_light x (cv_lang cv) enriched.
Proof.
  intros HB HC L H. unfold cooc_tokens in H. bind_inv H. bind_inv H. injection H as <-. eexists. split; [|reflexivity].
  exists a, a0, (deduplicate_overlapping_entities (map matched_of_builtin a ++ map matched_of_custom a0)).
  split; [exact E|]. split; [exact E0|]. split.
  - apply (dedup_entities_resolution (map matched_of_builtin a ++ map matched_of_custom a0)).
    intros e He. apply in_app_or in He.
    destruct He as [He|He]; apply in_map_iff in He as (u & <- & Hu); cbn [me_range matched_of_builtin matched_of_custom].
    + destruct (HB _ _ _ _ E _ Hu). split; [assumption|lia].
    + destruct (HC _ _ _ E0 _ Hu). split; [assumption|lia].
  - rewrite replace_entities_text. unfold edits_of, cooc_placeholder. f_equal. apply map_ext. intros e. rewrite join_nil. reflexivity.
Qed.

Lemma cooc_text_errors x cv utt :
  match cooc_tokens x cv utt with
  | Ok _ => True
  | Err e => rs_builtin (cv_res cv) utt (Some (cv_scope cv)) true 0 = Err e \/ rs_custom (cv_res cv) utt None 0 = Err e
  | Panic => rs_builtin (cv_res cv) utt (Some (cv_scope cv)) true 0 = Panic \/ rs_custom (cv_res cv) utt None 0 = Panic
  end.
Proof.
  unfold cooc_tokens. destruct (rs_builtin _ _ _ _ _); cbn [bind]; auto. destruct (rs_custom _ _ _ _); cbn [bind]; auto.
Qed.
