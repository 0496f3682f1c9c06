(** Proofs about src/utils.rs: overlap resolution and placeholder substitution. *)
From Coq Require Import List NArith ZArith Bool Lia Permutation Sorted Arith.
From Verif Require Import Base Sorting M_Utils S_Base S_Utils P_Base P_Engine.
Import ListNotations.

(** ** Lists sorted in the strong sense *)
Lemma SS_impl {A} (R S : A -> A -> Prop) l :
  (forall a b, In a l -> In b l -> R a b -> S a b) -> StronglySorted R l -> StronglySorted S l.
Proof.
  intros H Hs. induction Hs as [|x l Hs IH F]; constructor.
  - apply IH. intros a b Ha Hb. apply H; right; auto.
  - rewrite Forall_forall in *. intros y Hy. apply H; [left; auto|right; auto|]. apply F. auto.
Qed.

Lemma SS_and {A} (R S : A -> A -> Prop) l :
  StronglySorted R l -> StronglySorted S l -> StronglySorted (fun a b => R a b /\ S a b) l.
Proof.
  intros H1. induction H1 as [|x l Hs IH F]; intros H2; constructor; inv H2; auto.
  rewrite Forall_forall in *. auto.
Qed.

Lemma SS_perm {A} (R : A -> A -> Prop) l l' :
  (forall a b, R a b -> R b a) -> Permutation l l' -> StronglySorted R l -> StronglySorted R l'.
Proof.
  intros Hsym P. induction P as [|x l l' P IH|x y l|l m n P1 IH1 P2 IH2]; intros S; auto.
  - inv S. constructor; auto. rewrite Forall_forall in *. intros z Hz. apply H2.
    eapply Permutation_in; [apply Permutation_sym; eauto|auto].
  - inv S. inv H1. inv H2. constructor; [constructor; auto|]. constructor; auto.
Qed.

Lemma SS_app {A} (R : A -> A -> Prop) l m :
  StronglySorted R (l ++ m) <->
  StronglySorted R l /\ StronglySorted R m /\ (forall a b, In a l -> In b m -> R a b).
Proof.
  induction l as [|x l IH]; simpl.
  - split; [intros H; repeat split; auto; try constructor; intros a b []|tauto].
  - split.
    + intros H. inv H. apply IH in H2 as (S1 & S2 & S3). rewrite Forall_forall in H3. repeat split; auto.
      * constructor; auto. rewrite Forall_forall. intros y Hy. apply H3, in_or_app. auto.
      * intros a b [<-|Ha] Hb; auto. apply H3, in_or_app. auto.
    + intros (S1 & S2 & S3). inv S1. constructor.
      * apply IH. auto.
      * rewrite Forall_forall in *. intros y Hy. apply in_app_or in Hy as [Hy|Hy]; auto.
Qed.

Lemma SS_map {A B} (f : A -> B) (R : B -> B -> Prop) l :
  StronglySorted R (map f l) <-> StronglySorted (fun a b => R (f a) (f b)) l.
Proof.
  induction l as [|x l IH]; simpl; split; intros H; inv H; constructor; try apply IH; auto.
  - rewrite Forall_forall in *. intros y Hy. apply H3. apply in_map. auto.
  - rewrite Forall_forall in *. intros y Hy. apply in_map_iff in Hy as (a & <- & Ha). auto.
Qed.

(** ** The greedy loop *)
Section Dedup.
  Context {I : Type} (overlap : I -> I -> bool) (key : I -> Z).

  Notation free := (StronglySorted (fun a b => overlap a b = false)).

  Lemma dedup_loop_spec items : forall kept,
    free kept ->
    (forall k x, In k kept -> In x items -> (key k <= key x)%Z) ->
    StronglySorted (fun a b => (key a <= key b)%Z) items ->
    let r := dedup_loop overlap kept items in
    free r /\ (forall k, In k kept -> In k r) /\
    exists d, Permutation (kept ++ items) (r ++ d) /\
      forall x, In x d -> exists k, In k r /\ overlap k x = true /\ (key k <= key x)%Z.
  Proof.
    induction items as [|x items IH]; intros kept F K S; cbv zeta; simpl.
    - split; auto. split; auto. exists []. split; auto. intros x [].
    - inv S. rewrite Forall_forall in H2.
      destruct (existsb (fun d => overlap d x) kept) eqn:E.
      + apply existsb_exists in E as (k & Hk & Ok).
        destruct (IH kept F) as (F' & Inc & d & P & D); auto.
        { intros k' x' H H'. apply K; simpl; auto. }
        split; auto. split; auto. exists (x :: d). split.
        * eapply Permutation_trans; [apply Permutation_sym, Permutation_middle|].
          eapply Permutation_trans; [apply perm_skip, P|]. apply Permutation_middle.
        * intros y [<-|Hy]; auto. exists k. split; auto. split; auto. apply K; simpl; auto.
      + destruct (IH (kept ++ [x])) as (F' & Inc & d & P & D); auto.
        { apply SS_app. split; auto. split; [repeat constructor|].
          intros a b Ha [<-|[]]. destruct (overlap a x) eqn:Oa; auto.
          rewrite <- E. symmetry. apply existsb_exists. eauto. }
        { intros k x' Hk Hx'. apply in_app_or in Hk as [Hk|[<-|[]]]; auto. apply K; simpl; auto. }
        split; auto. split.
        * intros k Hk. apply Inc, in_or_app. auto.
        * exists d. split; auto. rewrite <- app_assoc in P. exact P.
  Qed.

  Lemma dedup_loop_all items : forall kept,
    free (kept ++ items) -> dedup_loop overlap kept items = kept ++ items.
  Proof.
    induction items as [|x items IH]; intros kept F; simpl.
    - rewrite app_nil_r. reflexivity.
    - assert (E : existsb (fun d => overlap d x) kept = false).
      { destruct (existsb _ kept) eqn:E; auto. apply existsb_exists in E as (k & Hk & Ok).
        apply SS_app in F as (_ & _ & F). rewrite (F k x) in Ok; [discriminate|auto|left; auto]. }
      rewrite E, IH; rewrite <- app_assoc; auto.
  Qed.
End Dedup.

Lemma ranges_overlap_sym a b : ranges_overlap a b = ranges_overlap b a.
Proof. unfold ranges_overlap. apply andb_comm. Qed.

Lemma ranges_overlap_overlaps a b :
  ranges_overlap a b = true -> rstart a < rend a -> rstart b < rend b -> overlaps a b.
Proof.
  unfold ranges_overlap. rewrite andb_true_iff, !Nat.ltb_lt. intros [H1 H2] H3 H4.
  exists (max (rstart a) (rstart b)). unfold in_range. lia.
Qed.

Lemma no_overlap_disjoint a b : ranges_overlap a b = false -> ~ overlaps a b.
Proof.
  unfold ranges_overlap. rewrite andb_false_iff, !Nat.ltb_ge. intros H (i & H1 & H2).
  unfold in_range in *. lia.
Qed.

Section Resolve.
  Context {I : Type} (rng : I -> range) (key : I -> Z).
  Definition resolve (items : list I) : list I :=
    sort_by_key (fun e => Z.of_nat (rstart (rng e)))
      (deduplicate_overlapping_items (fun a b => ranges_overlap (rng a) (rng b)) key items).

  Lemma resolve_free items :
    StronglySorted (fun a b => ranges_overlap (rng a) (rng b) = false /\ rstart (rng a) <= rstart (rng b))
                   (resolve items) /\
    exists d, Permutation items (resolve items ++ d) /\
      forall x, In x d -> exists k, In k (resolve items) /\
        ranges_overlap (rng k) (rng x) = true /\ (key k <= key x)%Z.
  Proof.
    unfold resolve, deduplicate_overlapping_items.
    destruct (dedup_loop_spec (fun a b => ranges_overlap (rng a) (rng b)) key
                (sort_by_key key items) []) as (F & _ & d & P & D).
    { constructor. } { intros k x []. } { apply sort_by_key_sorted. }
    set (loop := dedup_loop _ [] (sort_by_key key items)) in *.
    split.
    - apply SS_and.
      + eapply SS_perm; [|apply sort_by_key_perm|exact F].
        intros a b. simpl. rewrite ranges_overlap_sym. auto.
      + eapply SS_impl; [|apply sort_by_key_sorted]. intros a b _ _. simpl. lia.
    - exists d. split.
      + eapply Permutation_trans; [apply (sort_by_key_perm key)|].
        eapply Permutation_trans; [exact P|]. apply Permutation_app_tail, sort_by_key_perm.
      + intros x Hx. destruct (D x Hx) as (k & Hk & R). exists k. split; auto.
        apply sort_by_key_In. exact Hk.
  Qed.

  Lemma resolve_ordered items : ordered_disjoint (map rng (resolve items)).
  Proof.
    unfold ordered_disjoint. apply (sorted_nth (fun a b => rstart a <= rstart b /\ ~ overlaps a b)).
    apply SS_map. eapply SS_impl; [|apply resolve_free]. simpl.
    intros a b _ _ [H1 H2]. split; auto. apply no_overlap_disjoint. exact H1.
  Qed.

  Lemma resolve_resolution items :
    (forall e, In e items -> rstart (rng e) < rend (rng e)) ->
    overlap_resolution rng (fun e => (- key e)%Z) items (resolve items).
  Proof.
    intros NE. split; [apply resolve_ordered|].
    destruct (resolve_free items) as (_ & d & P & D). exists d. split; auto.
    intros x Hx. destruct (D x Hx) as (k & Hk & Ov & Le). exists k. split; auto.
    assert (In x items) by (eapply Permutation_in; [apply Permutation_sym; eauto|apply in_or_app; auto]).
    assert (In k items) by (eapply Permutation_in; [apply Permutation_sym; eauto|apply in_or_app; auto]).
    split; [|lia]. rewrite ranges_overlap_sym in Ov. apply ranges_overlap_overlaps; auto.
  Qed.

  Lemma resolve_In items e : In e (resolve items) -> In e items.
  Proof.
    intros H. destruct (resolve_free items) as (_ & d & P & _).
    eapply Permutation_in; [apply Permutation_sym; eauto|]. apply in_or_app. auto.
  Qed.

  Lemma resolve_idem items :
    (forall e, In e items -> rstart (rng e) < rend (rng e)) ->
    resolve (resolve items) = resolve items.
  Proof.
    intros NE. set (K := resolve items).
    assert (F := proj1 (resolve_free items)). fold K in F.
    assert (NK : forall e, In e K -> rstart (rng e) < rend (rng e)) by (intros e H; apply NE, resolve_In; auto).
    assert (E : deduplicate_overlapping_items (fun a b => ranges_overlap (rng a) (rng b)) key K
                = sort_by_key key K).
    { unfold deduplicate_overlapping_items. rewrite dedup_loop_all; auto. simpl.
      eapply SS_perm; [|apply sort_by_key_perm|].
      - intros a b. simpl. rewrite ranges_overlap_sym. auto.
      - eapply SS_impl; [|exact F]. simpl. tauto. }
    assert (P : Permutation K (resolve K)).
    { unfold resolve at 1. rewrite E. eapply Permutation_trans; apply sort_by_key_perm. }
    assert (ST : forall l, Permutation K l ->
       StronglySorted (fun a b => ranges_overlap (rng a) (rng b) = false /\ rstart (rng a) <= rstart (rng b)) l ->
       StronglySorted (fun a b => rstart (rng a) < rstart (rng b)) l).
    { intros l Pl. apply SS_impl. intros a b Ha Hb [H1 H2].
      assert (In a K) by (eapply Permutation_in; [apply Permutation_sym; eauto|auto]).
      assert (In b K) by (eapply Permutation_in; [apply Permutation_sym; eauto|auto]).
      apply NK in H, H0. unfold ranges_overlap in H1.
      apply andb_false_iff in H1. rewrite !Nat.ltb_ge in H1. lia. }
    symmetry. apply (sorted_perm_unique (fun a b => rstart (rng a) < rstart (rng b))); auto.
    - intros a. lia.
    - intros a b. lia.
    - apply ST; auto. apply resolve_free.
  Qed.

  Lemma resolve_isolated items e :
    (forall e, In e items -> rstart (rng e) < rend (rng e)) ->
    In e items -> (forall e', In e' items -> overlaps (rng e) (rng e') -> e' = e) ->
    In e (resolve items).
  Proof.
    intros NE He Hiso. destruct (resolve_resolution items NE) as (_ & d & P & D).
    assert (H : In e (resolve items ++ d)) by (eapply Permutation_in; eauto).
    apply in_app_or in H as [H|H]; auto.
    destruct (D e H) as (k & Hk & Ov & _).
    rewrite <- (Hiso k); auto. apply resolve_In. exact Hk.
  Qed.
End Resolve.

(** ** Matched entities *)
Lemma dedup_entities_resolve es :
  deduplicate_overlapping_entities es = resolve me_range entity_sort_key es.
Proof. reflexivity. Qed.

Definition ent_len (e : MatchedEntity) : Z := Z.of_nat (rend (me_range e) - rstart (me_range e)).

Definition ent_ok (n : nat) (e : MatchedEntity) : Prop := wf_range n (me_range e).

Lemma dedup_entities_resolution es :
  (forall e, In e es -> rstart (me_range e) < rend (me_range e) /\ (Z.of_nat (rend (me_range e)) < 2 ^ 31)%Z) ->
  overlap_resolution me_range ent_len es (deduplicate_overlapping_entities es).
Proof.
  intros H. rewrite dedup_entities_resolve.
  destruct (resolve_resolution me_range entity_sort_key es) as (O & d & P & D).
  { intros e He. apply H. exact He. }
  split; auto. exists d. split; auto. intros x Hx. destruct (D x Hx) as (k & Hk & Ov & Le).
  exists k. split; auto. split; auto.
  assert (In x es) by (eapply Permutation_in; [apply Permutation_sym; eauto|apply in_or_app; auto]).
  assert (In k es) by (apply (resolve_In me_range entity_sort_key); exact Hk).
  apply H in H0 as (H0 & H0'), H1 as (H1 & H1').
  change (2 ^ 31)%Z with 2147483648%Z in *.
  unfold entity_sort_key, ent_len, rlen in *. rewrite !as_i32_id in Le by lia. lia.
Qed.

(** The edits made for a list of entities. *)
Definition edits_of (placeholder : str -> str) (kept : list MatchedEntity) : list edit :=
  map (fun e => (me_range e, placeholder (me_name e))) kept.

Lemma edits_ok_of_sorted ph n kept : forall cur,
  cur <= n ->
  (forall e, In e kept -> wf_range n (me_range e) /\ cur <= rstart (me_range e)) ->
  StronglySorted (fun a b => ranges_overlap (me_range a) (me_range b) = false
                             /\ rstart (me_range a) <= rstart (me_range b)) kept ->
  edits_ok n cur (edits_of ph kept).
Proof.
  induction kept as [|e kept IH]; intros cur Hc W S; simpl; auto.
  destruct (W e (or_introl eq_refl)) as [[W1 W2] W3].
  split; auto. split; auto. split; auto. apply IH; auto.
  - intros e' He'. destruct (W e' (or_intror He')) as [[W1' W2'] W3'].
    split; [split; auto|]. inv S. rewrite Forall_forall in H2.
    destruct (H2 e' He') as [N L]. unfold ranges_overlap in N.
    apply andb_false_iff in N. rewrite !Nat.ltb_ge in N. lia.
  - inv S. auto.
Qed.

Lemma dedup_edits_ok ph n es :
  (forall e, In e es -> wf_range n (me_range e)) ->
  edits_ok n 0 (edits_of ph (deduplicate_overlapping_entities es)).
Proof.
  intros H. rewrite dedup_entities_resolve. apply edits_ok_of_sorted; [lia| |apply resolve_free].
  intros e He. split; [|lia]. apply H. eapply resolve_In. exact He.
Qed.

Lemma dedup_sort_id es :
  sort_by_key (fun e => Z.of_nat (rstart (me_range e))) (deduplicate_overlapping_entities es)
  = deduplicate_overlapping_entities es.
Proof. apply sort_by_key_id. apply sort_by_key_sorted. Qed.

Lemma edits_ok_cur n es : forall cur, edits_ok n cur es -> cur <= n.
Proof. intros cur. destruct es as [|[r p] es]; simpl; lia. Qed.

Lemma apply_edits_length text es : forall cur,
  edits_ok (length text) cur es ->
  forall pos k v, In (k, v) (edit_positions cur pos es) ->
    pos <= rstart k /\ rstart k <= rend k /\ rend k <= pos + length (apply_edits text cur es).
Proof.
  induction es as [|[r p] es IH]; intros cur OK pos k v H; simpl in *; try contradiction.
  destruct OK as (O1 & O2 & O3 & O4).
  rewrite !app_length, substring_length by (simpl; lia).
  unfold rlen. cbn [rstart rend fst snd].
  destruct H as [E|H].
  - inv E. cbn [rstart rend fst snd]. unfold rstart, rend in *. lia.
  - apply IH in H; auto. unfold rstart, rend in *. lia.
Qed.

Lemma replace_fold text ph kept : forall m txt cur,
  let edits := edits_of ph kept in
  edits_ok (length text) cur edits ->
  (forall e, In e kept -> ph (me_name e) <> []) ->
  (forall k, In k (hkeys m) -> rstart k < rend k /\ rend k <= length txt) ->
  (Z.of_nat (length text) < 32768)%Z ->
  (Z.of_nat (length txt + length (apply_edits text cur edits)) < 32768)%Z ->
  let st := fold_left (rep_step text ph) kept
              (mkRep m txt (Z.of_nat (length txt) - Z.of_nat cur)%Z cur) in
  rp_map st = m ++ edit_positions cur (length txt) edits /\
  rp_text st ++ suffix_from text (rp_cur st) = txt ++ apply_edits text cur edits.
Proof.
  induction kept as [|e kept IH]; intros m txt cur edits OK NE Hm B1 B2.
  - simpl. rewrite app_nil_r. split; auto. f_equal. unfold suffix_from. rewrite substring_suffix. reflexivity.
  - unfold edits in *. simpl in OK, B2. destruct OK as (O1 & O2 & O3 & O4).
    rewrite !app_length, substring_length in B2 by (simpl; lia).
    unfold rlen in B2. cbn [rstart rend fst snd] in B2.
    cbv zeta. cbn [fold_left]. unfold rep_step at 2 4 6. cbn [rp_map rp_text rp_off rp_cur].
    set (r := me_range e) in *. set (p := ph (me_name e)) in *.
    set (start := length txt + (rstart r - cur)).
    assert (E1 : as_i16 (as_i16 (Z.of_nat (rstart r)) + (Z.of_nat (length txt) - Z.of_nat cur)) = Z.of_nat start).
    { rewrite (as_i16_id (Z.of_nat (rstart r))) by (unfold rstart, rend in *; lia).
      rewrite as_i16_id; unfold start, rstart, rend in *; lia. }
    assert (E2 : as_i16 (Z.of_nat (length txt) - Z.of_nat cur
                  + as_i16 (as_i16 (Z.of_nat (length p)) - as_i16 (Z.of_nat (rlen r))))
                 = (Z.of_nat (start + length p) - Z.of_nat (rend r))%Z).
    { unfold rlen. repeat rewrite (as_i16_id (Z.of_nat _)) by (unfold rstart, rend in *; lia).
      rewrite (as_i16_id (Z.of_nat (length p) - _)) by (unfold rstart, rend in *; lia).
      rewrite as_i16_id; unfold start, rstart, rend in *; lia. }
    rewrite E1, E2.
    assert (E3 : as_i16 (as_i16 (Z.of_nat (rend r)) + (Z.of_nat (start + length p) - Z.of_nat (rend r)))
                 = Z.of_nat (start + length p)).
    { rewrite (as_i16_id (Z.of_nat (rend r))) by (unfold rend in *; lia).
      rewrite as_i16_id; unfold start, rstart, rend in *; lia. }
    rewrite E3. rewrite !as_usize_nat by (unfold start, rstart, rend in *; lia).
    set (txt' := txt ++ substring text (cur, rstart r) ++ p).
    assert (L : length txt' = start + length p).
    { unfold txt'. rewrite !app_length, substring_length by (simpl; lia). unfold rlen, start. simpl. lia. }
    assert (Pn : p <> []) by (apply NE; left; reflexivity).
    assert (Pl : 0 < length p) by (destruct p; [congruence|simpl; lia]).
    rewrite (hinsert_app_fresh _ range_eqb_spec).
    2: { intros H. apply Hm in H. cbn [rstart rend fst snd] in H. unfold start in *. lia. }
    rewrite <- L.
    destruct (IH (m ++ [((start, length txt'), r)]) txt' (rend r)) as [IH1 IH2]; auto.
    + intros e' He'. apply NE. right. exact He'.
    + intros k Hk. unfold hkeys in Hk. rewrite map_app in Hk. apply in_app_or in Hk as [Hk|[<-|[]]].
      * apply Hm in Hk. unfold txt'. rewrite app_length. lia.
      * simpl. lia.
    + rewrite L. unfold start. lia.
    + split.
      * etransitivity; [exact IH1|]. rewrite <- app_assoc. simpl. unfold start, edits_of. fold r p. rewrite L. reflexivity.
      * etransitivity; [exact IH2|]. unfold txt'. rewrite <- !app_assoc. reflexivity.
Qed.

Lemma replace_entities_spec text es ph :
  (forall e, In e es -> wf_range (length text) (me_range e) /\ ph (me_name e) <> []) ->
  let edits := edits_of ph (deduplicate_overlapping_entities es) in
  (Z.of_nat (length text) < 32768)%Z ->
  (Z.of_nat (length (apply_edits text 0 edits)) < 32768)%Z ->
  replace_entities text es ph = (edit_positions 0 0 edits, apply_edits text 0 edits).
Proof.
  intros H edits B1 B2. unfold replace_entities. destruct es as [|e0 es0].
  - unfold edits. simpl. rewrite substring_full. reflexivity.
  - set (es := e0 :: es0) in *. rewrite dedup_sort_id.
    destruct (replace_fold text ph (deduplicate_overlapping_entities es) [] [] 0) as [R1 R2]; auto.
    + apply dedup_edits_ok. intros e He. apply H. exact He.
    + intros e He. apply H. rewrite dedup_entities_resolve in He. apply resolve_In in He. exact He.
    + intros k [].
    + simpl in R1, R2. rewrite R1, R2. reflexivity.
Qed.

(** ** The positions of the replacements *)
Lemma skipn_skipn {A} (l : list A) i j : skipn i (skipn j l) = skipn (j + i) l.
Proof. revert l. induction j; intros l; simpl; auto. destruct l; simpl; auto. apply skipn_nil. Qed.

Lemma nth_error_skipn {A} (l : list A) n k : nth_error (skipn n l) k = nth_error l (n + k).
Proof. revert l. induction n; intros [|x l]; simpl; auto. destruct k; reflexivity. Qed.

Lemma nth_error_firstn {A} (l : list A) n k : k < n -> nth_error (firstn n l) k = nth_error l k.
Proof.
  revert l k. induction n; intros l k H; [lia|]. destruct l as [|x l]; simpl; [destruct k; reflexivity|].
  destruct k; simpl; auto. apply IHn. lia.
Qed.

Lemma substring_char_at s r k : k < rlen r -> nth_error (substring s r) k = char_at s (rstart r + k).
Proof. intros H. unfold substring. rewrite nth_error_firstn, nth_error_skipn by auto. reflexivity. Qed.

Lemma substring_same_text s r s' r' :
  rend r <= length s -> rend r' <= length s' -> substring s r = substring s' r' -> same_text s r s' r'.
Proof.
  intros B B' E. assert (L : length (substring s r) = length (substring s' r')) by (rewrite E; reflexivity).
  rewrite !substring_length in L by auto. split; [exact L|].
  intros k Hk. rewrite <- !substring_char_at by (unfold rlen in *; lia). rewrite E. reflexivity.
Qed.

Lemma edit_positions_text text es : forall cur pos pre,
  edits_ok (length text) cur es -> pos = length pre ->
  Forall2 (fun kv ed => snd kv = fst ed /\
             substring (pre ++ apply_edits text cur es) (fst kv) = snd ed)
          (edit_positions cur pos es) es.
Proof.
  induction es as [|[r p] es IH]; intros cur pos pre OK ->; simpl; constructor.
  - simpl in *. split; auto. destruct OK as (O1 & O2 & O3 & O4).
    set (a := substring text (cur, rstart r)).
    assert (La : length a = rstart r - cur) by (unfold a; rewrite substring_length by (simpl; lia); reflexivity).
    rewrite app_assoc. rewrite <- La, <- app_length.
    replace (length (pre ++ a)) with (length (pre ++ a) + 0) at 1 by lia.
    rewrite substring_app_skip. rewrite substring_app_left by auto. apply substring_full.
  - simpl in *. destruct OK as (O1 & O2 & O3 & O4).
    rewrite (app_assoc _ p), (app_assoc pre). apply IH; auto.
    rewrite !app_length, substring_length by (simpl; lia). unfold rlen. simpl. lia.
Qed.

Lemma edit_positions_sorted es : forall n cur pos,
  edits_ok n cur es -> (forall e, In e es -> snd e <> []) ->
  StronglySorted (fun a b => rend (fst a) <= rstart (fst b) /\ rend (snd a) <= rstart (snd b))
                 (edit_positions cur pos es) /\
  (forall k v, In (k, v) (edit_positions cur pos es) ->
     pos <= rstart k /\ rstart k < rend k /\ cur <= rstart v /\ rstart v < rend v /\ rend v <= n).
Proof.
  induction es as [|[r p] es IH]; intros n cur pos OK NE; simpl.
  - split; [constructor|contradiction].
  - simpl in OK. destruct OK as (O1 & O2 & O3 & O4).
    assert (Lp : 0 < length p).
    { specialize (NE (r, p) (or_introl eq_refl)). simpl in NE. destruct p; [congruence|simpl; lia]. }
    destruct (IH n (rend r) (pos + (rstart r - cur) + length p) O4) as [S B].
    { intros e He. apply NE. right. exact He. }
    split.
    + constructor; auto. rewrite Forall_forall. intros [k v] Hk. apply B in Hk. simpl. lia.
    + intros k v [E|H].
      * inv E. cbn [rstart rend fst snd]. unfold rstart, rend in *. lia.
      * apply B in H. unfold rstart, rend in *. lia.
Qed.

Lemma StronglySorted_NoDup {A} (R : A -> A -> Prop) l :
  (forall a, In a l -> ~ R a a) -> StronglySorted R l -> NoDup l.
Proof.
  intros Irr S. induction S as [|x l S IH F]; constructor.
  - intros H. rewrite Forall_forall in F. apply (Irr x); simpl; auto.
  - apply IH. intros a Ha. apply Irr. right. auto.
Qed.

Lemma edit_positions_NoDup es n cur pos :
  edits_ok n cur es -> (forall e, In e es -> snd e <> []) ->
  NoDup (hkeys (edit_positions cur pos es)).
Proof.
  intros OK NE. destruct (edit_positions_sorted es n cur pos OK NE) as [S B].
  apply (StronglySorted_NoDup (fun a b => rend a <= rstart b)).
  - intros a Ha. unfold hkeys in Ha. apply in_map_iff in Ha as ([k v] & <- & Hk).
    apply B in Hk. simpl. lia.
  - unfold hkeys. apply SS_map. eapply SS_impl; [|exact S]. simpl. tauto.
Qed.

(** ** Going back to the user's text *)
(** A range of the new text outside the replacements, in terms of the old text. *)
Lemma gap_text text es : forall cur pos pre a b,
  edits_ok (length text) cur es -> (forall e, In e es -> snd e <> []) -> pos = length pre ->
  pos <= a -> a <= b -> b <= pos + length (apply_edits text cur es) ->
  (forall k v, In (k, v) (edit_positions cur pos es) -> rend k <= a \/ b <= rstart k) ->
  exists c q,
    ((c = cur /\ q = pos /\ forall k v, In (k, v) (edit_positions cur pos es) -> a < rend k) \/
     (exists k v, In (k, v) (edit_positions cur pos es) /\ rend k <= a /\ c = rend v /\ q = rend k /\
        forall k' v', In (k', v') (edit_positions cur pos es) -> rend k' <= a -> rend k' <= rend k)) /\
    q <= a /\ c + (b - q) <= length text /\
    substring (pre ++ apply_edits text cur es) (a, b) = substring text (c + (a - q), c + (b - q)) /\
    (forall k v, In (k, v) (edit_positions cur pos es) -> rend v <= c + (a - q) \/ c + (b - q) <= rstart v).
Proof.
  induction es as [|[r p] es IH]; intros cur pos pre a b OK NE -> Ha Hab Hb Out.
  - simpl in *. exists cur, (length pre).
    rewrite substring_suffix, skipn_length in Hb.
    split; [left; repeat split; auto; contradiction|]. split; auto. split; [lia|]. split; [|contradiction].
    replace (a, b) with (length pre + (a - length pre), length pre + (b - length pre)) by (f_equal; lia).
    rewrite substring_app_skip, substring_suffix.
    unfold substring, rlen, rstart, rend. simpl. rewrite skipn_skipn. f_equal; lia.
  - simpl in OK. destruct OK as (O1 & O2 & O3 & O4).
    assert (Lp : 0 < length p).
    { specialize (NE (r, p) (or_introl eq_refl)). simpl in NE. destruct p; [congruence|simpl; lia]. }
    assert (NE' : forall e, In e es -> snd e <> []) by (intros e He; apply NE; right; exact He).
    assert (Ls : length (substring text (cur, rstart r)) = rstart r - cur)
      by (rewrite substring_length by (simpl; lia); reflexivity).
    set (start := length pre + (rstart r - cur)) in *.
    assert (Tl : forall k v, In (k, v) (edit_positions (rend r) (start + length p) es) ->
       start + length p <= rstart k /\ rstart k < rend k /\ rend r <= rstart v /\ rstart v < rend v)
      by (intros k v Hk; apply (proj2 (edit_positions_sorted es _ _ _ O4 NE')) in Hk; lia).
    cbn [edit_positions apply_edits] in *. fold start in Out |- *.
    destruct (Out (start, start + length p) r (or_introl eq_refl)) as [C|C]; cbn [rstart rend fst snd] in C.
    + set (pre' := pre ++ substring text (cur, rstart r) ++ p).
      assert (Lpre : start + length p = length pre').
      { unfold pre'. rewrite !app_length, Ls. unfold start. lia. }
      rewrite !app_length, Ls in Hb.
      destruct (IH (rend r) (start + length p) pre' a b O4 NE' Lpre C Hab) as (c & q & Hcq & Hq & Hc & Hs & Hd).
      { unfold start. lia. }
      { intros k v Hk. apply (Out k v). right. exact Hk. }
      assert (Hge : rend r <= c + (a - q)).
      { destruct Hcq as [(-> & -> & _)|(k & v & Hk & _ & -> & _)]; [lia|]. apply Tl in Hk. lia. }
      exists c, q. split; [|split; [auto|split; [auto|split]]].
      * right. destruct Hcq as [(-> & -> & Hn)|(k & v & Hk & Hk' & -> & -> & Hm)].
        -- exists (start, start + length p), r. cbn [rstart rend fst snd].
           split; [left; reflexivity|]. repeat split; auto.
           intros k' v' [E|Hk'] Hle; [inv E; simpl; lia|]. apply Hn in Hk'. lia.
        -- exists k, v. split; [right; exact Hk|]. repeat split; auto.
           intros k' v' [E|Hk2] Hle; [|eauto]. inv E. apply Tl in Hk. simpl. lia.
      * rewrite <- Hs. unfold pre'. rewrite <- !app_assoc. reflexivity.
      * intros k v [E|Hk]; [inv E; left; exact Hge|]. eauto.
    + exists cur, (length pre). split; [|split; [auto|split; [unfold start, rstart, rend in *; lia|split]]].
      * left. split; auto. split; auto. intros k v [E|Hk]; [inv E; simpl; lia|]. apply Tl in Hk. lia.
      * replace (a, b) with (length pre + (a - length pre), length pre + (b - length pre)) by (f_equal; lia).
        rewrite substring_app_skip, substring_app_left by (rewrite Ls; unfold start in C; lia).
        unfold substring, rlen, rstart, rend in *. simpl in *.
        rewrite skipn_firstn_comm, firstn_firstn, skipn_skipn. f_equal; unfold start in *; lia.
      * unfold start in *. intros k v [E|Hk].
        -- inv E. right. unfold rstart, rend in *; lia.
        -- apply Tl in Hk. right. unfold rstart, rend in *. lia.
Qed.

(** ** Texts that are too long *)
Lemma as_i16_neg z : (32768 <= z < 65536)%Z -> as_i16 z = (z - 65536)%Z.
Proof.
  intros H. unfold as_i16, wrap. change (2 ^ (16 - 1))%Z with 32768%Z. change (2 ^ 16)%Z with 65536%Z.
  replace (z + 32768)%Z with ((z - 32768) + 1 * 65536)%Z by lia.
  rewrite Z.mod_add by lia. rewrite Z.mod_small; lia.
Qed.

Lemma as_usize_neg z : (- 65536 <= z < 0)%Z -> (Z.of_nat (as_usize z) = z + 2 ^ 64)%Z.
Proof.
  intros H. unfold as_usize. change (2 ^ 64)%Z with 18446744073709551616%Z.
  replace z with ((z + 18446744073709551616) + (-1) * 18446744073709551616)%Z at 1 by lia.
  rewrite Z.mod_add by lia. rewrite Z.mod_small by lia. rewrite Z2Nat.id; lia.
Qed.

Lemma long_text_mapping text e ph :
  wf_range (length text) (me_range e) ->
  (32768 <= Z.of_nat (rstart (me_range e)) < 65536)%Z ->
  let '(mapping, new) := replace_entities text [e] ph in
  new = substring text (0, rstart (me_range e)) ++ ph (me_name e)
        ++ substring text (rend (me_range e), length text) /\
  exists k, mapping = [(k, me_range e)] /\ (Z.of_nat (rstart k) >= 2 ^ 63)%Z.
Proof.
  intros [W1 W2] B. destruct e as [[a b] name]. cbn [me_range me_name rstart rend fst snd] in *.
  unfold replace_entities. rewrite dedup_sort_id.
  assert (E : deduplicate_overlapping_entities [mkME (a, b) name] = [mkME (a, b) name]) by reflexivity.
  rewrite E. cbn [fold_left]. unfold rep_step. cbn [rp_map rp_text rp_off rp_cur me_range me_name hinsert].
  split.
  - unfold suffix_from. rewrite substring_suffix. cbn [rstart rend fst snd]. rewrite app_nil_l, <- app_assoc. reflexivity.
  - eexists. split; [reflexivity|]. cbn [rstart fst].
    rewrite (as_i16_neg (Z.of_nat a)) by lia. rewrite Z.add_0_r.
    rewrite as_i16_id by lia. rewrite as_usize_neg by lia.
    change (2 ^ 64)%Z with 18446744073709551616%Z. change (2 ^ 63)%Z with 9223372036854775808%Z. lia.
Qed.

Lemma edit_positions_In_text text es k v :
  edits_ok (length text) 0 es -> In (k, v) (edit_positions 0 0 es) ->
  exists p, In (v, p) es /\ substring (apply_edits text 0 es) k = p.
Proof.
  intros OK H. assert (F := edit_positions_text text es 0 0 [] OK eq_refl). simpl app in F.
  apply (Forall2_In_l _ _ _ _ F) in H as ([r p] & He & E1 & E2). simpl in *. subst. eauto.
Qed.

(** ** The same facts from the result of [replace_entities] *)
Lemma rep_fold_text text ph kept : forall st,
  rp_text (fold_left (rep_step text ph) kept st)
    ++ suffix_from text (rp_cur (fold_left (rep_step text ph) kept st))
  = rp_text st ++ apply_edits text (rp_cur st) (edits_of ph kept).
Proof.
  induction kept as [|e kept IH]; intros st; cbn [fold_left].
  - simpl. unfold suffix_from. rewrite substring_suffix. reflexivity.
  - rewrite IH. unfold rep_step. cbn [rp_text rp_cur]. simpl. rewrite <- !app_assoc. reflexivity.
Qed.

Lemma replace_entities_text text es ph :
  snd (replace_entities text es ph)
  = apply_edits text 0 (edits_of ph (deduplicate_overlapping_entities es)).
Proof.
  unfold replace_entities. destruct es as [|e0 es0].
  - simpl. rewrite substring_full. reflexivity.
  - rewrite dedup_sort_id. cbn [snd]. rewrite rep_fold_text. reflexivity.
Qed.

Lemma edits_of_nonempty ph es :
  (forall e, In e es -> ph (me_name e) <> []) ->
  forall ed, In ed (edits_of ph (deduplicate_overlapping_entities es)) -> snd ed <> [].
Proof.
  intros H ed He. unfold edits_of in He. apply in_map_iff in He as (e & <- & He).
  simpl. apply H. rewrite dedup_entities_resolve in He. apply resolve_In in He. exact He.
Qed.

Lemma replaced text es ph mapping new :
  (forall e, In e es -> wf_range (length text) (me_range e) /\ ph (me_name e) <> []) ->
  (Z.of_nat (length text) < 32768)%Z ->
  replace_entities text es ph = (mapping, new) ->
  (Z.of_nat (length new) < 32768)%Z ->
  let edits := edits_of ph (deduplicate_overlapping_entities es) in
  mapping = edit_positions 0 0 edits /\ new = apply_edits text 0 edits /\
  edits_ok (length text) 0 edits /\ (forall ed, In ed edits -> snd ed <> []).
Proof.
  intros H B1 E B2 edits.
  assert (En : new = apply_edits text 0 edits).
  { unfold edits. rewrite <- replace_entities_text, E. reflexivity. }
  assert (S := replace_entities_spec text es ph H B1). fold edits in S. cbv zeta in S.
  rewrite <- En in S. specialize (S B2). split; [congruence|]. split; auto. split.
  - apply dedup_edits_ok. intros e He. apply H. exact He.
  - apply edits_of_nonempty. intros e He. apply H. exact He.
Qed.

Lemma replacement_spec text es ph :
  (forall e, In e es -> wf_range (length text) (me_range e) /\ ph (me_name e) <> []) ->
  (Z.of_nat (length text) < 32768)%Z ->
  exists kept,
    overlap_resolution me_range ent_len es kept /\
    let edits := map (fun e => (me_range e, ph (me_name e))) kept in
    edits_ok (length text) 0 edits /\
    ((Z.of_nat (length (apply_edits text 0 edits)) < 32768)%Z ->
     replace_entities text es ph = (edit_positions 0 0 edits, apply_edits text 0 edits)).
Proof.
  intros H B. exists (deduplicate_overlapping_entities es). split.
  - apply dedup_entities_resolution. intros e He. destruct (H e He) as [[W1 W2] _].
    split; auto. change (2 ^ 31)%Z with 2147483648%Z. lia.
  - split.
    + apply dedup_edits_ok. intros e He. apply H. exact He.
    + intros B2. apply replace_entities_spec; auto.
Qed.

Lemma mapping_designates text es ph mapping new :
  (forall e, In e es -> wf_range (length text) (me_range e) /\ ph (me_name e) <> []) ->
  (Z.of_nat (length text) < 32768)%Z ->
  replace_entities text es ph = (mapping, new) ->
  (Z.of_nat (length new) < 32768)%Z ->
  (forall k r, In (k, r) mapping ->
     exists e, In e es /\ me_range e = r /\ wf_range (length new) k /\
               substring new k = ph (me_name e)) /\
  ordered_disjoint (map fst mapping) /\ NoDup (map fst mapping).
Proof.
  intros H B1 E B2. destruct (replaced text es ph mapping new H B1 E B2) as (-> & -> & OK & NE).
  set (edits := edits_of ph _) in *. split; [|split].
  - intros k r Hk. destruct (edit_positions_In_text text edits k r OK Hk) as (p & Hp & Hs).
    unfold edits, edits_of in Hp. apply in_map_iff in Hp as (e & Ee & He). inv Ee.
    exists e. split; [rewrite dedup_entities_resolve in He; apply resolve_In in He; exact He|].
    split; auto. split; auto.
    assert (A := apply_edits_length text edits 0 OK 0 k _ Hk).
    apply (proj2 (edit_positions_sorted edits _ 0 0 OK NE)) in Hk. unfold wf_range. lia.
  - unfold ordered_disjoint. apply (sorted_nth (fun a b => rstart a <= rstart b /\ ~ overlaps a b)).
    apply SS_map. destruct (edit_positions_sorted edits _ 0 0 OK NE) as [S B].
    eapply SS_impl; [|exact S]. intros [ka va] [kb vb] Ha Hb [L _]. simpl in *.
    apply B in Ha. apply B in Hb. split; [lia|]. intros (i & H1 & H2). unfold in_range in *. lia.
  - eapply edit_positions_NoDup; eauto.
Qed.

Lemma long_text_refuted : exists text e ph mapping new k,
  wf_range (length text) (me_range e) /\ ph (me_name e) <> [] /\
  replace_entities text [e] ph = (mapping, new) /\
  In (k, me_range e) mapping /\ ~ wf_range (length new) k.
Proof.
  set (n := Z.to_nat 40000). set (a := Z.to_nat 35000). set (b := Z.to_nat 35005).
  assert (Hn : Z.of_nat n = 40000%Z) by (unfold n; rewrite Z2Nat.id; lia).
  assert (Ha : Z.of_nat a = 35000%Z) by (unfold a; rewrite Z2Nat.id; lia).
  assert (Hb : Z.of_nat b = 35005%Z) by (unfold b; rewrite Z2Nat.id; lia).
  clearbody n a b.
  set (text := @repeat char 97%N n). set (e := mkME (a, b) [97%N]). set (ph := fun _ : str => [37%N; 65%N; 37%N]).
  assert (Lt : length text = n) by apply repeat_length.
  assert (W : wf_range (length text) (me_range e)) by (rewrite Lt; unfold wf_range, rstart, rend; simpl; lia).
  assert (S := long_text_mapping text e ph W). destruct (replace_entities text [e] ph) as [mapping new] eqn:E.
  destruct S as (En & k & Em & Hk).
  { unfold e, rstart. simpl. lia. }
  exists text, e, ph, mapping, new, k. split; auto. split; [discriminate|]. split; auto.
  split; [rewrite Em; left; reflexivity|]. intros [W1 W2].
  change (2 ^ 63)%Z with 9223372036854775808%Z in Hk.
  assert (L : length new <= length text).
  { rewrite En. rewrite !app_length, !substring_length.
    - unfold rlen, rstart, rend, ph, e. cbn [me_range fst snd length]. rewrite Lt. lia.
    - simpl. lia.
    - unfold rend, rstart, e. simpl. lia. }
  rewrite Lt in L. unfold rstart, rend in *. lia.
Qed.
