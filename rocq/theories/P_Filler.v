(** Proofs about the slot filler. *)
From Coq Require Import String List NArith ZArith Bool Arith Lia.
From Verif Require Import Base M_Types M_Crf M_Feat M_Features M_Filler S_Base S_Utils S_Det S_Crf S_Filler
  P_Base P_Utils P_Feat P_Crf P_Features P_Encode.
Import ListNotations.
Local Open Scope nat_scope.

(** ** C30 *)
Lemma no_tagger_probability cf p toks tags :
  cf_tagger cf = None ->
  ((forall t, In t tags -> t = $"O") -> crf_sequence_probability cf p toks tags = (Ok (f64_of_Z 1), p)) /\
  ((exists t, In t tags /\ t <> $"O") -> crf_sequence_probability cf p toks tags = (Ok (f64_of_Z 0), p)) /\
  forall x text, crf_get_slots x cf p text = Ok [].
Proof.
  intros Ht. unfold crf_sequence_probability, crf_get_slots. rewrite Ht. split; [|split; [|reflexivity]].
  - intros H. replace (existsb _ tags) with false; [reflexivity|]. symmetry.
    apply not_true_iff_false. rewrite existsb_exists. intros (t & Hin & Hn).
    rewrite (H t Hin) in Hn. discriminate.
  - intros (t & Hin & Hn). replace (existsb _ tags) with true; [reflexivity|]. symmetry.
    apply existsb_exists. exists t. split; [exact Hin|]. apply negb_true_iff, is_outside_false. exact Hn.
Qed.

Lemma decode_labels labels : (forall l, In l labels -> unicode l) ->
  mapM decode_tag (map encode_tag labels) = Ok labels.
Proof.
  induction labels as [|l labels IH]; intros H; [reflexivity|]. cbn [map mapM].
  rewrite tag_round by (apply H; left; reflexivity). cbn [bind]. rewrite IH by (intros; apply H; right; assumption).
  reflexivity.
Qed.

Lemma clean_tags_spec labels tags : labels <> [] \/ tags = [] ->
  exists cleaned, clean_tags labels tags = Ok (map encode_tag cleaned) /\ Forall2 (scored_as labels) tags cleaned.
Proof.
  intros Hl. induction tags as [|t tags IH]; [exists []; split; constructor|].
  destruct Hl as [Hl|Hl]; [|discriminate].
  destruct IH as (cleaned & E & HF); [left; exact Hl|].
  unfold clean_tags in *. cbn [mapM]. rewrite E.
  destruct (smem t labels) eqn:Em.
  - apply smem_spec in Em. exists (t :: cleaned). cbn [bind map]. split; [reflexivity|]. constructor; [|exact HF]. left. auto.
  - apply smem_false in Em. unfold get_substitution_label. destruct (smem OUTSIDE labels) eqn:Eo.
    + apply smem_spec in Eo. exists ($"O" :: cleaned). cbn [bind map]. split; [reflexivity|]. constructor; [|exact HF].
      right; left. auto.
    + apply smem_false in Eo. destruct labels as [|l labels]; [congruence|].
      exists (l :: cleaned). cbn [index nth_error bind map]. split; [reflexivity|]. constructor; [|exact HF].
      right; right. split; [exact Em|]. split; [exact Eo|]. exists labels. reflexivity.
Qed.
Lemma clean_tags_panics tags : tags <> [] -> clean_tags [] tags = Panic.
Proof. destruct tags as [|t tags]; [congruence|]. reflexivity. Qed.

Lemma tagger_probability cf tagger processor toks tags fs labels :
  cf_tagger cf = Some tagger -> cf_processor cf = Some processor ->
  compute_features processor toks = Ok fs ->
  tg_labels tagger = Ok (map encode_tag labels) -> (forall l, In l labels -> unicode l) ->
  labels <> [] \/ tags = [] ->
  exists cleaned, Forall2 (scored_as labels) tags cleaned /\
    fst (crf_sequence_probability cf false toks tags) = tg_probability tagger fs (map encode_tag cleaned).
Proof.
  intros H1 H2 H3 H4 H5 H6. destruct (clean_tags_spec labels tags H6) as (cleaned & E & HF).
  exists cleaned. split; [exact HF|]. unfold crf_sequence_probability. rewrite H1, H2, H3, H4. cbn [fst bind].
  rewrite decode_labels by exact H5. cbn [bind]. rewrite E. reflexivity.
Qed.

Lemma no_label_panics cf tagger processor toks tags fs :
  cf_tagger cf = Some tagger -> cf_processor cf = Some processor ->
  compute_features processor toks = Ok fs -> tg_labels tagger = Ok [] -> tags <> [] ->
  crf_sequence_probability cf false toks tags = (Panic, true).
Proof.
  intros H1 H2 H3 H4 H5. unfold crf_sequence_probability. rewrite H1, H2, H3, H4. cbn [bind mapM].
  rewrite clean_tags_panics by exact H5. reflexivity.
Qed.
Lemma poisoned_fails x cf tagger processor :
  cf_tagger cf = Some tagger -> cf_processor cf = Some processor ->
  (forall toks tags, fst (crf_sequence_probability cf true toks tags) = Panic \/
     exists e, fst (crf_sequence_probability cf true toks tags) = Err e) /\
  (forall toks tags, snd (crf_sequence_probability cf true toks tags) = true) /\
  (forall text, x_tokenize x (cf_lang cf) text <> [] ->
     crf_get_slots x cf true text = Panic \/ exists e, crf_get_slots x cf true text = Err e).
Proof.
  intros H1 H2. unfold crf_sequence_probability, crf_get_slots. rewrite H1, H2. repeat split.
  - intros toks tags. destruct (compute_features processor toks); cbn [fst]; eauto.
  - intros toks tags. destruct (compute_features processor toks); reflexivity.
  - intros text Ht. destruct (x_tokenize x (cf_lang cf) text) as [|t r]; [congruence|].
    destruct (compute_features processor (t :: r)); cbn [bind]; eauto.
Qed.

(** ** C28, end to end *)
Lemma compute_features_length fos toks fs : compute_features fos toks = Ok fs -> length fs = length toks.
Proof.
  unfold compute_features.
  assert (H : forall (n : nat) (acc : outcome features), (forall a, acc = Ok a -> length a = n) -> forall (f : outcome features -> nat -> outcome features) l,
     (forall acc i, (forall a, acc = Ok a -> length a = n) -> forall a, f acc i = Ok a -> length a = n) ->
     forall a, fold_left f l acc = Ok a -> length a = n).
  { intros n acc Hacc f l Hf. revert acc Hacc. induction l as [|i l IH]; intros acc Hacc a Ha; [apply Hacc; exact Ha|].
    cbn [fold_left] in Ha. eapply IH; [|exact Ha]. intros b Hb. eapply Hf; [|exact Hb]. exact Hacc. }
  assert (Hup : forall n k (f : list (str * str) -> list (str * str)) l l', length l = n -> update_at f k l = Ok l' -> length l' = n).
  { intros n k f l l' Hl Hu. destruct (Nat.lt_ge_cases k (length l)).
    - destruct (update_at_ok f k l H0) as (l2 & E & L & _). congruence.
    - rewrite update_at_panic in Hu by assumption. discriminate. }
  assert (Hoff : forall n m i name v offs (acc : outcome features), (forall a, acc = Ok a -> length a = n) ->
     forall a, fold_left (push_offset m i name v) offs acc = Ok a -> length a = n).
  { intros n m i name v offs. induction offs as [|o offs IH]; intros acc Hacc a Ha; [apply Hacc; exact Ha|].
    cbn [fold_left] in Ha. eapply IH; [|exact Ha]. intros b Hb. unfold push_offset in Hb.
    destruct acc as [fs0|e|]; cbn [bind] in Hb; try discriminate.
    destruct (_ && _)%bool; [eapply Hup; [|exact Hb]; apply Hacc; reflexivity|injection Hb as <-; apply Hacc; reflexivity]. }
  assert (Hfe : forall n fo (acc : outcome features), (forall a, acc = Ok a -> length a = n) ->
     forall a, fold_left (push_feature toks fo) (seq 0 (length toks)) acc = Ok a -> length a = n).
  { intros n fo acc Hacc. apply H; [exact Hacc|]. intros acc' i Hacc' a Ha. unfold push_feature in Ha.
    destruct acc' as [fs0|e|]; cbn [bind] in Ha; try discriminate.
    destruct (ft_compute (fo_feature fo) toks i) as [[v|]|e|]; cbn [bind] in Ha; try discriminate.
    - eapply Hoff; [|exact Ha]. intros b [= <-]. apply Hacc'. reflexivity.
    - injection Ha as <-. apply Hacc'. reflexivity. }
  assert (H0 : forall acc : outcome features, (forall a, acc = Ok a -> length a = length toks) ->
    fold_left (fun acc fo => fold_left (push_feature toks fo) (seq 0 (length toks)) acc) fos acc = Ok fs -> length fs = length toks).
  { induction fos as [|fo fos IH]; intros acc Hacc Ha; [apply Hacc; exact Ha|]. cbn [fold_left] in Ha.
    eapply IH; [|exact Ha]. intros b Hb. eapply Hfe; [|exact Hb]. exact Hacc. }
  apply H0. intros a [= <-]. apply repeat_length.
Qed.

Lemma segs_chars_ordered text toks tags mapping (n : nat) segs slots :
  tokens_ok text toks -> n <= length toks -> (forall s, In s segs -> wf_range n s) -> ordered_disjoint segs ->
  Forall2 (text_slot text toks tags mapping) segs slots -> ordered_disjoint (map is_range slots).
Proof.
  intros Ht Hn Hw Ho HF i j ra rb Hij Ha Hb. rewrite nth_error_map in Ha, Hb.
  destruct (nth_error slots i) as [a|] eqn:Ea; [|discriminate]. destruct (nth_error slots j) as [b|] eqn:Eb; [|discriminate].
  cbn [option_map] in Ha, Hb. injection Ha as <-. injection Hb as <-.
  assert (Hnth : forall k s, nth_error slots k = Some s -> exists g, nth_error segs k = Some g /\ text_slot text toks tags mapping g s).
  { clear - HF. induction HF as [|g s segs slots H HF IH]; intros k s' Hk; [destruct k; discriminate|].
    destruct k as [|k]; [injection Hk as <-; exists g; auto|]. apply IH; exact Hk. }
  destruct (Hnth i a Ea) as (ga & Ga & Ta). destruct (Hnth j b Eb) as (gb & Gb & Tb).
  destruct (Ho i j ga gb Hij Ga Gb) as [_ Hd].
  pose proof (Hw ga (nth_error_In _ _ Ga)) as [Wa1 Wa2]. pose proof (Hw gb (nth_error_In _ _ Gb)) as [Wb1 Wb2].
  assert (Hlt : rend ga <= rstart gb).
  { destruct (Ho i j ga gb Hij Ga Gb) as [Hs _]. destruct (Nat.le_gt_cases (rend ga) (rstart gb)); [assumption|].
    exfalso. apply Hd. exists (rstart gb). unfold in_range. lia. }
  destruct Ta as ([ba (a1 & a2 & A1 & A2 & _ & A3)] & [WA1 WA2] & _). destruct Tb as ([bb (b1 & b2 & B1 & B2 & _ & B3)] & [WB1 WB2] & _).
  pose proof (proj2 Ht (rend ga - 1) (rstart gb) a2 b1 ltac:(lia) A2 B1) as Hord.
  rewrite A3, B3 in *. unfold rstart, rend in *; cbn [fst snd] in *. split; [lia|].
  intros (k & K1 & K2). unfold in_range, rstart, rend in *; cbn [fst snd] in *. lia.
Qed.

Lemma filler_slots x cf text slots :
  tokens_ok text (x_tokenize x (cf_lang cf) text) ->
  (forall tg, cf_tagger cf = Some tg -> tagger_ok tg /\ tags_in_alphabet (cf_scheme cf) tg) ->
  crf_get_slots x cf false text = Ok slots ->
  (forall s, In s slots -> wf_range (length text) (is_range s) /\ is_value s = substring text (is_range s) /\
             In (is_slot_name s, is_entity s) (cf_mapping cf)) /\
  ordered_disjoint (map is_range slots).
Proof.
  intros Ht Hg H. unfold crf_get_slots in H.
  assert (Hnil : Ok [] = Ok slots ->
    (forall s, In s slots -> wf_range (length text) (is_range s) /\ is_value s = substring text (is_range s) /\
               In (is_slot_name s, is_entity s) (cf_mapping cf)) /\ ordered_disjoint (map is_range slots)).
  { intros [= <-]. split; [intros s []|]. intros i j a b _ Ha. destruct i; discriminate. }
  destruct (cf_tagger cf) as [tg|]; [|apply Hnil; exact H]. destruct (cf_processor cf) as [pr|]; [|apply Hnil; exact H].
  destruct (x_tokenize x (cf_lang cf) text) as [|t r] eqn:Etok; [apply Hnil; exact H|].
  set (toks := t :: r) in *. clear Hnil. destruct (Hg tg eq_refl) as [Hok Hal].
  destruct (compute_features pr toks) as [fs|e|] eqn:Ef; cbn [bind] in H; try discriminate.
  destruct (tg_tag tg fs) as [raw|e|] eqn:Eg; cbn [bind] in H; try discriminate.
  destruct (mapM decode_tag raw) as [tags|e|] eqn:Ed; cbn [bind] in H; try discriminate.
  assert (Hlen : length tags = length toks).
  { rewrite (mapM_ok_length _ _ _ Ed), (Hok _ _ Eg). apply compute_features_length in Ef. exact Ef. }
  destruct (slots_slices _ _ _ _ _ _ Ht (Nat.eq_le_incl _ _ Hlen) H) as (segs & W & Seg & HF).
  pose proof (Seg (Hal fs raw tags Eg Ed)) as (_ & Ho & _).
  split.
  - intros s Hs. destruct (Forall2_In_r _ _ _ _ HF Hs) as (g & _ & _ & T2 & T3 & _ & T5).
    split; [exact T2|]. split; [exact T3|]. apply sget_In. exact T5.
  - eapply segs_chars_ordered; [exact Ht| |exact W|exact Ho|exact HF]. lia.
Qed.

(** ** No panic *)
Definition good_acc (n : nat) (acc : outcome features) : Prop :=
  (exists g, acc = Ok (map g (seq 0 n))) \/ exists e, acc = Err e.

Lemma compute_features_no_panic toks fos :
  (Z.of_nat (length toks) < 2 ^ 31)%Z -> (forall fo o, In fo fos -> In o (fo_offsets fo) -> is_i32 o) ->
  (forall fo i, In fo fos -> i < length toks -> ft_compute (fo_feature fo) toks i <> Panic) ->
  compute_features fos toks <> Panic.
Proof.
  intros Hn Ho Hc. set (n := length toks) in *.
  assert (Hf : forall fo is, In fo fos -> (forall i, In i is -> i < n) -> forall acc, good_acc n acc ->
     good_acc n (fold_left (push_feature toks fo) is acc)).
  { intros fo is Hin. induction is as [|i is IH]; intros Hi acc Hacc; [exact Hacc|]. cbn [fold_left].
    apply IH; [intros; apply Hi; right; assumption|].
    destruct Hacc as [[g ->]|[e ->]]; [|right; exists e; reflexivity].
    destruct (ft_compute (fo_feature fo) toks i) as [v|e|] eqn:Ev.
    - left. unfold n. rewrite (push_feature_rows toks fo i v g); [eauto|apply Hi; left; reflexivity|exact Hn|intros o; apply Ho; exact Hin|exact Ev].
    - right. exists e. unfold push_feature. cbn [bind]. rewrite Ev. reflexivity.
    - exfalso. apply (Hc fo i Hin); [apply Hi; left; reflexivity|exact Ev]. }
  assert (Hg : forall l acc, (forall fo, In fo l -> In fo fos) -> good_acc n acc ->
     good_acc n (fold_left (fun acc fo => fold_left (push_feature toks fo) (seq 0 n) acc) l acc)).
  { induction l as [|fo l IH]; intros acc Hl Hacc; [exact Hacc|]. cbn [fold_left].
    apply IH; [intros; apply Hl; right; assumption|]. apply Hf; [apply Hl; left; reflexivity| |exact Hacc].
    intros i Hi. apply in_seq in Hi. lia. }
  unfold compute_features. fold n.
  destruct (Hg fos (Ok (repeat [] n)) (fun fo H => H)) as [[g E]|[e E]]; [|rewrite E; discriminate|rewrite E; discriminate].
  left. exists (fun _ => []). rewrite repeat_map_seq. reflexivity.
Qed.

Lemma mapM_In {A B} (f : A -> outcome B) l r b : mapM f l = Ok r -> In b r -> exists a, In a l /\ f a = Ok b.
Proof.
  revert r. induction l as [|a l IH]; intros r H Hb; cbn [mapM] in H; [injection H as <-; destruct Hb|].
  bind_inv H. bind_inv H. injection H as <-. destruct Hb as [<-|Hb]; [exists a; split; [left; reflexivity|assumption]|].
  destruct (IH _ E0 Hb) as (a' & H1 & H2). exists a'. split; [right; exact H1|exact H2].
Qed.

Lemma index_some {A} (l : list A) i : i < length l -> exists a, index l i = Ok a /\ nth_error l i = Some a.
Proof.
  intros H. unfold index. destruct (nth_error l i) eqn:E; [eauto|]. apply nth_error_None in E. lia.
Qed.

(** The tokens touched by a range. *)
Definition touched (toks : list token) (r : range) : list nat :=
  filter (fun j => match nth_error toks j with
                   | Some tj => ranges_overlap (tk_char_range tj) r
                   | None => false
                   end) (seq 0 (length toks)).
Lemma touched_spec toks r j : (forall t, In t toks -> rstart (tk_char_range t) < rend (tk_char_range t)) ->
  rstart r < rend r -> (In j (touched toks r) <-> touches toks r j).
Proof.
  intros Ht Hr. unfold touched, touches. rewrite filter_In, in_seq. split.
  - intros [_ H]. destruct (nth_error toks j) as [t|] eqn:E; [|discriminate]. exists t. split; [reflexivity|].
    apply ranges_overlap_overlaps; [exact H|apply Ht; eapply nth_error_In; exact E|exact Hr].
  - intros (t & E & H). assert (j < length toks) by (apply nth_error_Some; congruence).
    split; [lia|]. rewrite E. destruct (ranges_overlap (tk_char_range t) r) eqn:Er; [reflexivity|].
    exfalso. exact (no_overlap_disjoint _ _ Er H).
Qed.

Lemma touched_incr toks r i j a b : i < j -> nth_error (touched toks r) i = Some a ->
  nth_error (touched toks r) j = Some b -> a < b.
Proof.
  unfold touched. generalize (fun j0 : nat => match nth_error toks j0 with
                   | Some tj => ranges_overlap (tk_char_range tj) r | None => false end).
  generalize 0 at 1 2 as s. generalize (length toks) as n.
  intros n s f. revert s i j a b. induction n as [|n IH]; intros s i j a b Hij Ha Hb; [destruct i; discriminate|].
  cbn [seq filter] in Ha, Hb. destruct (f s); [|exact (IH _ _ _ _ _ Hij Ha Hb)].
  destruct j as [|j]; [lia|]. destruct i as [|i]; cbn [nth_error] in Ha, Hb.
  - injection Ha as <-. apply nth_error_In in Hb. apply filter_In in Hb. destruct Hb as [Hb _]. apply in_seq in Hb. lia.
  - apply (IH (S s) i j a b); [lia|exact Ha|exact Hb].
Qed.

Lemma find_split {A} (f : A -> bool) l a : find f l = Some a ->
  exists before after, l = before ++ a :: after /\ f a = true /\ forall b, In b before -> f b = false.
Proof.
  induction l as [|b l IH]; [discriminate|]. cbn [find]. destruct (f b) eqn:E.
  - intros [= ->]. exists [], l. repeat split; [exact E|intros _ []].
  - intros H. destruct (IH H) as (u & v & -> & Hf & Hu). exists (b :: u), v. split; [reflexivity|]. split; [exact Hf|].
    intros b' [<-|Hb]; [exact E|exact (Hu b' Hb)].
Qed.

Lemma entity_prefix_spec sc toks i ranges v :
  (forall t, In t toks -> rstart (tk_char_range t) < rend (tk_char_range t)) ->
  (forall r, In r ranges -> rstart r < rend r) ->
  entity_prefix sc toks i ranges = Ok v -> entity_mark sc toks ranges i v.
Proof.
  intros Ht Hr H. unfold entity_prefix in H.
  assert (Ei : exists t, index toks i = Ok t /\ nth_error toks i = Some t).
  { unfold index in *. destruct (nth_error toks i); [eauto|discriminate]. }
  destruct Ei as (t & E & Et). rewrite E in H. cbn [bind] in H.
  pose proof (Ht t (nth_error_In _ _ Et)) as Hti.
  assert (Hnt : forall r, In r ranges -> ranges_overlap r (tk_char_range t) = false -> ~ touches toks r i).
  { intros r Hin Hf (t' & Et' & Ho). rewrite Et in Et'. injection Et' as <-. rewrite ranges_overlap_sym in Hf.
    exact (no_overlap_disjoint _ _ Hf Ho). }
  destruct (find _ ranges) as [r|] eqn:Ef.
  - right. destruct (find_split _ _ _ Ef) as (before & after & Hl & Ho & Hb).
    fold (touched toks r) in H.
    assert (Hin : In r ranges) by (rewrite Hl; apply in_or_app; right; left; reflexivity).
    pose proof (Hr r Hin) as Hrr. rewrite ranges_overlap_sym in Ho.
    assert (Hi : touches toks r i) by (exists t; split; [exact Et|apply ranges_overlap_overlaps; assumption]).
    pose proof (fun j => touched_spec toks r j Ht Hrr) as Hs.
    pose proof (touched_incr toks r) as Hinc.
    set (l := touched toks r) in *. pose proof (proj2 (Hs i) Hi) as Hil. apply In_nth_error in Hil. destruct Hil as [k Hk].
    assert (Hkl : k < length l) by (apply nth_error_Some; congruence).
    destruct (index_some l 0 ltac:(lia)) as (first & F1 & F2).
    destruct (index_some l (length l - 1) ltac:(lia)) as (last & L1 & L2).
    assert (Hall : forall j, touches toks r j -> first <= j <= last).
    { intros j Hj. apply (proj2 (Hs j)) in Hj. apply In_nth_error in Hj. destruct Hj as [m Hm].
      assert (m < length l) by (apply nth_error_Some; congruence). split.
      - destruct m as [|m]; [rewrite F2 in Hm; injection Hm as <-; lia|]. pose proof (Hinc 0 (S m) first j ltac:(lia) F2 Hm). lia.
      - destruct (Nat.eq_dec m (length l - 1)) as [->|]; [rewrite L2 in Hm; injection Hm as <-; lia|].
        pose proof (Hinc m (length l - 1) j last ltac:(lia) Hm L2). lia. }
    exists before, r, after, first, last. split; [exact Hl|].
    split; [intros r' Hr'; apply Hnt; [rewrite Hl; apply in_or_app; left; exact Hr'|apply Hb; exact Hr']|].
    split; [exact Hi|]. split; [apply Hall; exact Hi|].
    split; [apply Hs; apply nth_error_In in F2; exact F2|]. split; [apply Hs; apply nth_error_In in L2; exact L2|].
    split; [exact Hall|].
    destruct (get_scheme_prefix i l sc) as [p|e|] eqn:Ep; cbn [bind] in H; try discriminate.
    injection H as <-. f_equal. destruct sc; cbn [get_scheme_prefix position_prefix] in *.
    + injection Ep as <-. reflexivity.
    + rewrite F1 in Ep. cbn [bind] in Ep. injection Ep as <-.
      destruct (Nat.eqb_spec i first); destruct (Nat.eq_dec i first); try contradiction; reflexivity.
    + destruct (Nat.eqb_spec (length l) 1) as [E1|E1].
      * injection Ep as <-. assert (first = last) by (rewrite E1 in L2; change (1 - 1) with 0 in L2; congruence).
        destruct (Nat.eq_dec first last); [reflexivity|contradiction].
      * assert (first < last) by (apply (Hinc 0 (length l - 1)); [lia|exact F2|exact L2]).
        destruct (Nat.eq_dec first last); [lia|]. rewrite F1 in Ep. cbn [bind] in Ep.
        destruct (Nat.eqb_spec i first); destruct (Nat.eq_dec i first); try contradiction; [injection Ep as <-; reflexivity|].
        rewrite L1 in Ep. cbn [bind] in Ep. injection Ep as <-.
        destruct (Nat.eqb_spec i last); destruct (Nat.eq_dec i last); try contradiction; reflexivity.
  - left. injection H as <-. split; [reflexivity|]. intros r Hin. apply Hnt; [exact Hin|]. exact (find_none _ _ Ef r Hin).
Qed.

Lemma entity_prefix_ok sc toks i ranges : i < length toks -> exists v, entity_prefix sc toks i ranges = Ok v.
Proof.
  intros Hi. unfold entity_prefix. destruct (index_some toks i Hi) as (t & E & Et). rewrite E. cbn [bind].
  destruct (find _ ranges) as [r|] eqn:Ef; [|eauto]. fold (touched toks r).
  assert (Hin : In i (touched toks r)).
  { apply find_some in Ef. destruct Ef as [_ Ef]. unfold touched. apply filter_In. rewrite in_seq, Et. split; [lia|].
    rewrite ranges_overlap_sym. exact Ef. }
  assert (Hl : 0 < length (touched toks r)) by (destruct (touched toks r); [destruct Hin|cbn; lia]).
  set (l := touched toks r) in *.
  destruct (index_some l 0 Hl) as (f & Hf & _). destruct (index_some l (length l - 1) ltac:(lia)) as (la & Hla & _).
  destruct sc; cbn [get_scheme_prefix].
  - cbn [bind]. eauto.
  - rewrite Hf. cbn [bind]. eauto.
  - destruct (length l =? 1); [cbn [bind]; eauto|]. rewrite Hf. cbn [bind]. destruct (i =? f); [cbn [bind]; eauto|].
    rewrite Hla. cbn [bind]. eauto.
Qed.

Lemma transform_length x st toks : length (transform_tokens x toks st) = length toks.
Proof.
  unfold transform_tokens. generalize 0 at 2 as b. generalize 0 as c. induction toks as [|t r IH]; intros c b; [reflexivity|].
  cbn [transform_tokens_from length]. rewrite IH. reflexivity.
Qed.

Lemma rebuild_ok toks : toks <> [] -> exists s, initial_string_from_tokens toks = Ok s.
Proof.
  intros H. destruct (initial_string_from_tokens toks) as [s|e|] eqn:E; [eauto| |].
  - exfalso. unfold initial_string_from_tokens in E. destruct (usub (2 * length toks) 1) eqn:E'; cbn [bind] in E; try discriminate.
    unfold usub in E'. destruct (1 <=? _); discriminate.
  - apply rebuild_panics in E. contradiction.
Qed.

(** What the match features say. *)
Lemma entity_match_spec x entity sc st parser toks i v text es :
  let moved := transform_tokens x toks st in
  initial_string_from_tokens moved = Ok text -> parser text (Some [entity]) 0 = Ok es ->
  (forall t, In t toks -> stem_normalize x st (tk_value t) <> []) -> (forall e, In e es -> rstart (ce_range e) < rend (ce_range e)) ->
  ft_compute (entity_match_feature x entity sc st parser) toks i = Ok v ->
  entity_mark sc moved (map ce_range es) i v.
Proof.
  intros moved Htext Hes Ht He H. cbn [ft_compute entity_match_feature] in H. fold moved in H.
  rewrite Htext in H. cbn [bind] in H. rewrite Hes in H. cbn [bind] in H.
  eapply entity_prefix_spec; [| |exact H].
  - intros t Hin. subst moved. unfold transform_tokens in Hin. clear - Hin Ht. revert Hin. generalize 0 at 2 as b. generalize 0 as c.
    induction toks as [|t0 r IH]; intros c b Hin; [destruct Hin|]. cbn [transform_tokens_from In] in Hin. destruct Hin as [<-|Hin].
    + cbn [tk_char_range]. unfold rstart, rend; cbn [fst snd]. pose proof (Ht t0 (or_introl eq_refl)) as Hn.
      destruct (stem_normalize x st (tk_value t0)); [contradiction|cbn [length]; lia].
    + eapply IH; [|exact Hin]. intros t' H'. apply Ht. right; exact H'.
  - intros r Hr. apply in_map_iff in Hr. destruct Hr as (e & <- & Hin). apply He, Hin.
Qed.

Lemma builtin_match_spec k sc parser toks i v text es :
  initial_string_from_tokens toks = Ok text -> parser text (Some [k]) true 0 = Ok es ->
  (forall t, In t toks -> rstart (tk_char_range t) < rend (tk_char_range t)) -> (forall e, In e es -> rstart (be_range e) < rend (be_range e)) ->
  ft_compute (builtin_match_feature k sc parser) toks i = Ok v ->
  entity_mark sc toks (map be_range es) i v.
Proof.
  intros Htext Hes Ht He H. cbn [ft_compute builtin_match_feature] in H.
  rewrite Htext in H. cbn [bind] in H. rewrite Hes in H. cbn [bind] in H.
  eapply entity_prefix_spec; [exact Ht| |exact H].
  intros r Hr. apply in_map_iff in Hr. destruct Hr as (e & <- & Hin). apply He, Hin.
Qed.

(** N-grams. *)
Lemma uadd_small a b : (Z.of_nat a + Z.of_nat b < 2 ^ 64)%Z -> uadd a b = a + b.
Proof.
  intros H. unfold uadd, as_usize. rewrite Z.mod_small by lia. lia.
Qed.

Lemma ngram_spec x n gaz st toks i : i < length toks -> (Z.of_nat i + Z.of_nat n < 2 ^ 64)%Z ->
  (i + n <= length toks ->
     ft_compute (ngram_feature x n gaz st) toks i =
       Ok (Some (join [space] (map (ngram_word x st gaz) (firstn n (skipn i toks)))))) /\
  (length toks < i + n -> ft_compute (ngram_feature x n gaz st) toks i = Ok None).
Proof.
  intros Hi Hn. cbn [ngram_feature ft_compute]. rewrite uadd_small by exact Hn. split; intros H.
  - destruct (Nat.ltb_spec (length toks) (i + n)); [lia|]. unfold slice.
    destruct (Nat.leb_spec i (i + n)); [|lia]. destruct (Nat.leb_spec (i + n) (length toks)); [|lia]. cbn [andb bind].
    replace (i + n - i) with n by lia. reflexivity.
  - destruct (Nat.ltb_spec (length toks) (i + n)); [reflexivity|lia].
Qed.

Lemma shape_ngram_spec shape n toks i : i < length toks -> (Z.of_nat i + Z.of_nat n < 2 ^ 64)%Z ->
  (0 < n -> i + n <= length toks ->
     ft_compute (shape_ngram_feature shape n) toks i =
       Ok (Some (join [space] (map (fun t => shape (tk_value t)) (firstn n (skipn i toks)))))) /\
  (n = 0 \/ length toks < i + n -> ft_compute (shape_ngram_feature shape n) toks i = Ok None).
Proof.
  intros Hi Hn. cbn [shape_ngram_feature ft_compute]. rewrite uadd_small by exact Hn. split.
  - intros H0 H. destruct (Nat.ltb_spec i (i + n)); [|lia]. destruct (Nat.leb_spec (i + n) (length toks)); [|lia]. cbn [andb].
    unfold slice. destruct (Nat.leb_spec i (i + n)); [|lia]. destruct (Nat.leb_spec (i + n) (length toks)); [|lia]. cbn [andb bind].
    replace (i + n - i) with n by lia. reflexivity.
  - intros H. destruct (Nat.ltb_spec i (i + n)), (Nat.leb_spec (i + n) (length toks)); cbn [andb]; try reflexivity; lia.
Qed.

(** No built feature panics. *)
(** The parsers do not panic on the texts made of the tokens. *)
Definition calm_on (x : Ext) (res : Resources) (toks : list token) : Prop :=
  (forall s f u n, rs_builtin res s f u n <> Panic) /\
  (forall st s f n, st = None \/ st = rs_stemmer res -> initial_string_from_tokens (transform_tokens x toks st) = Ok s ->
     rs_custom res s f n <> Panic).
Lemma never_panic_calm x res toks : parsers_never_panic res -> calm_on x res toks.
Proof. intros [Hb Hc]. split; [exact Hb|]. intros st s f n _ _. apply Hc. Qed.

Lemma get_features_no_panic x shape f res fos toks :
  calm_on x res toks -> sizes_fit (length toks) [f] -> get_features x shape f res = Ok fos ->
  forall fo i, In fo fos -> i < length toks -> ft_compute (fo_feature fo) toks i <> Panic.
Proof.
  intros [Hb Hc] Hs H fo i Hin Hi. unfold get_features in H.
  match type of H with (let* fs := ?m in _) = _ => destruct m as [fs|e|] eqn:E; cbn [bind] in H; try discriminate end.
  injection H as <-. apply in_map_iff in Hin. destruct Hin as (ft & <- & Hin). cbn [fo_feature].
  destruct (index_some toks i Hi) as (t & Et & _).
  assert (Hne : toks <> []) by (intros ->; cbn in Hi; lia).
  assert (Hu : forall z : Z, parse_as_u64 (ff_args f) $"n" = Ok z -> (Z.of_nat i + Z.of_nat (Z.to_nat z) < 2 ^ 64)%Z).
  { intros z Hz. unfold parse_as_u64 in Hz. destruct (sget $"n" (ff_args f)) as [j|] eqn:Ej; cbn [ok_or bind] in Hz; try discriminate.
    destruct j; try discriminate. destruct ((0 <=? z0) && (z0 <? 2 ^ 64))%Z eqn:Er; [|discriminate]. injection Hz as ->.
    apply andb_true_iff in Er. destruct Er as [E1 _]. apply Z.leb_le in E1.
    pose proof (Hs f z (or_introl eq_refl) Ej). lia. }
  repeat match type of E with (if ?c then _ else _) = _ => destruct c end; try discriminate.
  - injection E as <-. destruct Hin as [<-|[]]. cbn [ft_compute is_digit_feature]. rewrite Et. cbn [bind]. discriminate.
  - injection E as <-. destruct Hin as [<-|[]]. cbn [ft_compute length_feature]. rewrite Et. cbn [bind]. discriminate.
  - injection E as <-. destruct Hin as [<-|[]]. cbn [ft_compute is_first_feature]. discriminate.
  - injection E as <-. destruct Hin as [<-|[]]. cbn [ft_compute is_last_feature]. unfold usub.
    destruct (Nat.leb_spec 1 (length toks)); [|lia]. cbn [bind]. discriminate.
  - unfold build_ngram in E. bind_inv E. bind_inv E. bind_inv E. bind_inv E. bind_inv E. injection E as <-. destruct Hin as [<-|[]].
    match goal with |- ft_compute (ngram_feature _ (Z.to_nat ?z) ?g ?s) _ _ <> _ =>
      destruct (ngram_spec x (Z.to_nat z) g s toks i Hi (Hu z ltac:(assumption))) as [S1 S2];
      destruct (Nat.le_gt_cases (i + Z.to_nat z) (length toks)) as [L|L]; [rewrite (S1 L)|rewrite (S2 L)]; discriminate end.
  - unfold build_shape_ngram in E. bind_inv E. injection E as <-. destruct Hin as [<-|[]].
    match goal with |- ft_compute (shape_ngram_feature _ (Z.to_nat ?z)) _ _ <> _ =>
      destruct (shape_ngram_spec shape (Z.to_nat z) toks i Hi (Hu z ltac:(assumption))) as [S1 S2];
      destruct (Nat.eq_dec (Z.to_nat z) 0) as [Z0|Z0];
       [rewrite (S2 (or_introl Z0))|destruct (Nat.le_gt_cases (i + Z.to_nat z) (length toks)) as [L|L];
         [rewrite (S1 ltac:(lia) L)|rewrite (S2 (or_intror L))]]; discriminate end.
  - unfold build_prefix in E. bind_inv E. injection E as <-. destruct Hin as [<-|[]]. cbn [ft_compute prefix_feature]. rewrite Et. cbn [bind]. discriminate.
  - unfold build_suffix in E. bind_inv E. injection E as <-. destruct Hin as [<-|[]]. cbn [ft_compute suffix_feature]. rewrite Et. cbn [bind]. discriminate.
  - unfold build_entity_match in E. bind_inv E. bind_inv E. bind_inv E. bind_inv E. bind_inv E. injection E as <-.
    apply in_map_iff in Hin. destruct Hin as (en & <- & _). cbn [ft_compute entity_match_feature].
    match goal with |- context [transform_tokens x toks ?st] => 
      pose proof (transform_length x st toks) as Hl; set (moved := transform_tokens x toks st) in * end.
    assert (Hm : moved <> []) by (intros Em; rewrite Em in Hl; cbn in Hl; lia).
    destruct (rebuild_ok moved Hm) as [s Es]. rewrite Es. cbn [bind].
    match goal with |- (let* es := ?c in _) <> _ => destruct c as [es|e|] eqn:Ec; cbn [bind]; [|discriminate|exfalso] end;
      [|eapply Hc; [|exact Es|exact Ec]; match goal with H : (if ?b : bool then _ else _) = Ok _ |- _ => destruct b end;
        [match goal with H : (let* s := ok_or _ ?o in _) = Ok _ |- _ => destruct o; [injection H as <-; right; reflexivity|discriminate] end
        |match goal with H : Ok None = Ok _ |- _ => injection H as <-; left; reflexivity end]].
    match goal with |- entity_prefix ?sc _ _ ?rs <> _ => destruct (entity_prefix_ok sc moved i rs ltac:(lia)) as [v ->] end. discriminate.
  - unfold build_builtin_match in E. bind_inv E. bind_inv E. bind_inv E.
    destruct (mapM_In _ _ _ ft E Hin) as (l & _ & Hl).
    bind_inv Hl. injection Hl as <-. cbn [ft_compute builtin_match_feature].
    destruct (rebuild_ok toks Hne) as [s ->]. cbn [bind].
    match goal with |- (let* es := ?c in _) <> _ => destruct c as [es|e|] eqn:Ec; cbn [bind]; [|discriminate|exfalso; eapply Hb; exact Ec] end.
    match goal with |- entity_prefix ?sc _ _ ?rs <> _ => destruct (entity_prefix_ok sc toks i rs ltac:(lia)) as [v ->] end. discriminate.
  - unfold build_word_cluster in E. bind_inv E. bind_inv E. injection E as <-. destruct Hin as [<-|[]].
    cbn [ft_compute word_cluster_feature]. rewrite Et. cbn [bind]. discriminate.
Qed.

Lemma processor_parts x shape factories res p fo : processor_new x shape factories res = Ok p -> In fo p ->
  exists f fos, In f factories /\ get_features x shape f res = Ok fos /\ In fo fos.
Proof.
  intros H Hin. unfold processor_new in H. bind_inv H. injection H as <-.
  apply in_concat in Hin. destruct Hin as (fos & H1 & H2). destruct (mapM_In _ _ _ _ E H1) as (f & F1 & F2).
  exists f, fos. auto.
Qed.

Lemma get_features_offsets x shape f res fos fo : get_features x shape f res = Ok fos -> In fo fos ->
  fo_offsets fo = ff_offsets f.
Proof.
  intros H Hin. unfold get_features in H. bind_inv H. injection H as <-.
  apply in_map_iff in Hin. destruct Hin as (ft & <- & _). reflexivity.
Qed.

Lemma processor_no_panic x shape factories res p toks :
  processor_new x shape factories res = Ok p -> calm_on x res toks -> sizes_fit (length toks) factories ->
  (forall f o, In f factories -> In o (ff_offsets f) -> is_i32 o) -> (Z.of_nat (length toks) < 2 ^ 31)%Z ->
  compute_features p toks <> Panic.
Proof.
  intros Hp Hres Hs Ho Hn. apply compute_features_no_panic; [exact Hn| |].
  - intros fo o Hin Hoff. destruct (processor_parts _ _ _ _ _ _ Hp Hin) as (f & fos & F1 & F2 & F3).
    rewrite (get_features_offsets _ _ _ _ _ _ F2 F3) in Hoff. exact (Ho f o F1 Hoff).
  - intros fo i Hin Hi. destruct (processor_parts _ _ _ _ _ _ Hp Hin) as (f & fos & F1 & F2 & F3).
    eapply get_features_no_panic; [exact Hres| |exact F2|exact F3|exact Hi].
    intros f' z [<-|[]] Hz. exact (Hs f z F1 Hz).
Qed.

Lemma filler_calm x shape lang_of load_tagger m res cf poisoned text :
  crf_new x shape lang_of load_tagger m res = Ok cf ->
  let toks := x_tokenize x (cf_lang cf) text in
  tokens_ok text toks -> (Z.of_nat (length toks) < 2 ^ 31)%Z ->
  calm_on x res toks -> sizes_fit (length toks) (sm_factories m) ->
  (forall f o, In f (sm_factories m) -> In o (ff_offsets f) -> is_i32 o) ->
  (forall tg, cf_tagger cf = Some tg -> tagger_ok tg /\ tagger_never_panics tg) ->
  crf_get_slots x cf poisoned text <> Panic.
Proof.
  intros Hnew toks Ht Hn Hres Hs Ho Hg. unfold crf_get_slots. fold toks.
  destruct (cf_tagger cf) as [tg|] eqn:Etg; [|discriminate]. destruct (cf_processor cf) as [p|] eqn:Ep; [|discriminate].
  destruct (Hg tg eq_refl) as [Hok Hnp].
  assert (Hp : processor_new x shape (sm_factories m) res = Ok p).
  { unfold crf_new in Hnew. bind_inv Hnew. bind_inv Hnew. bind_inv Hnew. injection Hnew as <-. cbn [cf_processor] in Ep.
    destruct (sm_crf_file m); [|injection E0 as <-; discriminate]. bind_inv E0. bind_inv E0. injection E0 as <-.
    cbn [snd] in Ep. injection Ep as <-. assumption. }
  pose proof (processor_no_panic _ _ _ _ _ _ Hp Hres Hs Ho Hn) as Hf.
  destruct toks as [|t r] eqn:Etoks; [discriminate|]. rewrite <- Etoks in *.
  destruct (compute_features p toks) as [fs|e|] eqn:Ef; cbn [bind]; [|discriminate|contradiction].
  destruct poisoned; [discriminate|].
  destruct (tg_tag tg fs) as [raw|e|] eqn:Eg; cbn [bind]; [|discriminate|exfalso; exact (Hnp fs Eg)].
  destruct (mapM decode_tag raw) as [tags|e|] eqn:Ed; cbn [bind]; [|discriminate|].
  - apply slots_no_panic; [exact Ht|]. rewrite (mapM_ok_length _ _ _ Ed), (Hok _ _ Eg), (compute_features_length _ _ _ Ef). lia.
  - exfalso. revert Ed. apply mapM_not_panic. intros tag _. unfold decode_tag.
    destruct (b64_decode tag); cbn [ok_or bind]; [|discriminate]. destruct (utf8_decode l); discriminate.
Qed.

Lemma filler_no_panic x shape lang_of load_tagger m res cf poisoned text :
  crf_new x shape lang_of load_tagger m res = Ok cf ->
  let toks := x_tokenize x (cf_lang cf) text in
  tokens_ok text toks -> (Z.of_nat (length toks) < 2 ^ 31)%Z ->
  parsers_never_panic res -> sizes_fit (length toks) (sm_factories m) ->
  (forall f o, In f (sm_factories m) -> In o (ff_offsets f) -> is_i32 o) ->
  (forall tg, cf_tagger cf = Some tg -> tagger_ok tg /\ tagger_never_panics tg) ->
  crf_get_slots x cf poisoned text <> Panic.
Proof.
  intros Hnew toks Ht Hn Hres. eapply filler_calm; try eassumption. apply never_panic_calm. exact Hres.
Qed.

(** N-grams of a size near 2^64 panic. *)
Lemma ngram_overflow x gaz st toks i n :
  0 < i < length toks -> (Z.of_nat n = 2 ^ 64 - 1)%Z -> (Z.of_nat (length toks) < 2 ^ 63)%Z ->
  ft_compute (ngram_feature x n gaz st) toks i = Panic.
Proof.
  intros Hi Hn Hl. cbn [ngram_feature ft_compute]. assert (E : uadd i n = i - 1).
  { unfold uadd, as_usize. rewrite Hn. replace (Z.of_nat i + (2 ^ 64 - 1))%Z with (Z.of_nat (i - 1) + 1 * 2 ^ 64)%Z by lia.
    rewrite Z.mod_add by lia. rewrite Z.mod_small by lia. lia. }
  rewrite E. destruct (Nat.ltb_spec (length toks) (i - 1)); [lia|]. unfold slice.
  destruct (Nat.leb_spec i (i - 1)); [lia|]. reflexivity.
Qed.

Lemma filler_features x cf text fs :
  (Z.of_nat (length (x_tokenize x (cf_lang cf) text)) < 2 ^ 31)%Z ->
  (forall fos fo o, cf_processor cf = Some fos -> In fo fos -> In o (fo_offsets fo) -> is_i32 o) ->
  crf_compute_features x cf text = Ok fs ->
  length fs = length (x_tokenize x (cf_lang cf) text) /\
  forall j row key v, nth_error fs j = Some row ->
    (In (key, v) row <->
     exists fos fo o i, cf_processor cf = Some fos /\ In fo fos /\ In o (fo_offsets fo) /\ key = key_of (fo_feature fo) o /\
       (Z.of_nat i = Z.of_nat j + o)%Z /\ i < length (x_tokenize x (cf_lang cf) text) /\
       ft_compute (fo_feature fo) (x_tokenize x (cf_lang cf) text) i = Ok (Some v)).
Proof.
  unfold crf_compute_features. set (toks := x_tokenize x (cf_lang cf) text). clearbody toks. intros Hn Ho H.
  assert (C : toks = [] /\ fs = [] \/ exists fos, cf_processor cf = Some fos /\ compute_features fos toks = Ok fs \/
              cf_processor cf = None /\ fs = map (fun _ => []) toks).
  { destruct toks as [|t r]; [injection H as <-; left; auto|]. right. destruct (cf_processor cf) as [fos|]; [exists fos; auto|].
    injection H as <-. exists []. auto. }
  destruct C as [[-> ->]|(fos & [[P C]|[P ->]])].
  - split; [reflexivity|]. intros [|j] row key v E; discriminate.
  - destruct (features_at_offset _ _ _ Hn (fun fo o => Ho fos fo o P) C) as [Len F]. split; [exact Len|].
    intros j row key v E. rewrite (F j row key v E). split.
    + intros (fo & o & i & K). exists fos, fo, o, i. auto.
    + intros (fos' & fo & o & i & P' & K). rewrite P in P'. injection P' as <-. exists fo, o, i. exact K.
  - split; [apply map_length|]. intros j row key v E. rewrite nth_error_map in E.
    destruct (nth_error toks j); [|discriminate]. injection E as <-. split; [contradiction|].
    intros (fos' & fo & o & i & P' & _). congruence.
Qed.
