(** Proofs for C90: texts, entities, the lookup parser. *)
From Coq Require Import String List NArith ZArith Bool Arith Lia Permutation.
From Verif Require Import Base Sorting F32 M_Types M_Utils M_Engine M_Det M_Lookup M_Features M_Filler M_Cache M_Fs M_Json M_Load
  S_Base S_Utils S_Rank S_Det S_Rules S_Load S_Match S_Answer S_Made S_Seeds S_Case S_Pad P_Base P_Utils P_Rank P_Rules P_Seeds P_SeedsRules P_Case.
Import ListNotations.
Local Open Scope list_scope.
Local Open Scope nat_scope.

(** ** Values that are functions of others *)
Definition mv {A B} (g : A -> B) (a : A) (b : B) : Prop := b = g a.
Lemma mv_map {A B} (g : A -> B) l l' : Forall2 (mv g) l l' <-> l' = map g l.
Proof.
  split.
  - induction 1 as [|a b l l' H F IH]; simpl; auto. rewrite H, IH. reflexivity.
  - intros ->. induction l; constructor; auto. reflexivity.
Qed.
Lemma mv_out {A} (g : A -> A) m m' : same_out (mv g) m m' <-> m' = on_ok g m.
Proof. destruct m, m'; simpl; unfold mv; split; intros H; try discriminate; try contradiction; subst; auto; congruence. Qed.

Section Pad.
  Context (n k : nat).
  Notation pad := (padded n k).
  Notation mvr := (moved n).

  Lemma moved_length r : rlen (mvr r) = rlen r.
  Proof. unfold rlen, moved. simpl. unfold rend, rstart. lia. Qed.
  Lemma moved_overlap a b : ranges_overlap (mvr a) (mvr b) = ranges_overlap a b.
  Proof.
    unfold ranges_overlap, moved. cbn [rstart rend fst snd]. f_equal.
    - destruct (Nat.ltb_spec (rstart a) (rend b)); [apply Nat.ltb_lt|apply Nat.ltb_ge]; unfold rstart, rend in *; lia.
    - destruct (Nat.ltb_spec (rstart b) (rend a)); [apply Nat.ltb_lt|apply Nat.ltb_ge]; unfold rstart, rend in *; lia.
  Qed.
  Lemma moved_inj a b : mvr a = mvr b -> a = b.
  Proof. destruct a, b. unfold moved. cbn [rstart rend fst snd]. intros [= H1 H2]. f_equal; lia. Qed.
  Lemma moved_eqb a b : range_eqb (mvr a) (mvr b) = range_eqb a b.
  Proof.
    unfold range_eqb, moved. cbn [rstart rend fst snd]. f_equal.
    - destruct (Nat.eqb_spec (rstart a) (rstart b)); [apply Nat.eqb_eq|apply Nat.eqb_neq]; lia.
    - destruct (Nat.eqb_spec (rend a) (rend b)); [apply Nat.eqb_eq|apply Nat.eqb_neq]; lia.
  Qed.

  (** ** Texts *)
  Lemma pad_length s : length (pad s) = n + length s + k.
  Proof. unfold padded. rewrite !app_length, !repeat_length. lia. Qed.
  Lemma skipn_pad s i : skipn (n + i) (pad s) = skipn i (s ++ repeat 32%N k).
  Proof.
    unfold padded. induction n as [|m IH]; simpl; auto.
  Qed.
  Lemma pad_substring s r : rend r <= length s -> substring (pad s) (mvr r) = substring s r.
  Proof.
    intros H. unfold substring. rewrite moved_length. unfold moved. cbn [rstart fst]. rewrite skipn_pad.
    destruct (Nat.le_gt_cases (rend r) (rstart r)) as [G|G].
    - unfold rlen. replace (rend r - rstart r) with 0 by lia. reflexivity.
    - rewrite skipn_app, firstn_app, skipn_length. unfold rlen.
      replace (rend r - rstart r - (length s - rstart r)) with 0 by lia. simpl. apply app_nil_r.
  Qed.
  Lemma pad_suffix s i : i <= length s -> suffix_from (pad s) (n + i) = suffix_from s i ++ repeat 32%N k.
  Proof.
    intros H. unfold suffix_from. rewrite skipn_pad, skipn_app. f_equal. replace (i - length s) with 0 by lia. reflexivity.
  Qed.
  Lemma pad_prefix s i : i <= length s -> substring (pad s) (0, n + i) = repeat 32%N n ++ substring s (0, i).
  Proof.
    intros H. unfold substring, rlen, padded. cbn [rstart rend fst snd skipn]. rewrite !Nat.sub_0_r.
    rewrite firstn_app, repeat_length. replace (n + i - n) with i by lia.
    rewrite (firstn_all2 (repeat 32%N n)) by (rewrite repeat_length; lia). f_equal.
    rewrite firstn_app. replace (i - length s) with 0 by lia. simpl. apply app_nil_r.
  Qed.

  Lemma char_index_app s t b : b <= byte_len s -> char_index (s ++ t) b = char_index s b.
  Proof.
    revert b. induction s as [|c s IH]; intros b H; simpl in *.
    - replace b with 0 by lia. destruct t; reflexivity.
    - destruct (b =? 0); auto. f_equal. apply IH. lia.
  Qed.
  Lemma char_index_blanks m t b : char_index (repeat 32%N m ++ t) (m + b) = m + char_index t b.
  Proof. induction m as [|m IH]; simpl; auto. rewrite Nat.sub_0_r, IH. reflexivity. Qed.
  Lemma pad_char_range s r : rstart r <= byte_len s -> rend r <= byte_len s ->
    convert_to_char_range (pad s) (mvr r) = mvr (convert_to_char_range s r).
  Proof.
    intros H1 H2. unfold convert_to_char_range, moved, padded. cbn [rstart rend fst snd]. rewrite !char_index_blanks, !char_index_app; auto.
  Qed.
  Lemma boundary_app s t b : b <= byte_len s -> boundary (s ++ t) b = boundary s b.
  Proof.
    revert b. induction s as [|c s IH]; intros b H; cbn [app boundary byte_len fold_right map] in *.
    - replace b with 0 by (simpl in H; lia). destruct t; reflexivity.
    - destruct (b =? 0); auto. destruct (b <? utf8_len c) eqn:E; auto. rewrite IH; auto. simpl in H. lia.
  Qed.
  Lemma boundary_blanks m t b : boundary (repeat 32%N m ++ t) (m + b) = option_map (Nat.add m) (boundary t b).
  Proof.
    induction m as [|m IH].
    - simpl. destruct (boundary t b); reflexivity.
    - cbn [repeat app boundary Nat.add Nat.eqb]. change (utf8_len 32%N) with 1. cbn [Nat.ltb Nat.leb].
      replace (Datatypes.S (m + b) - 1) with (m + b) by lia. rewrite IH. destruct (boundary t b); reflexivity.
  Qed.
  Lemma boundary_length s b i : boundary s b = Some i -> i <= length s.
  Proof.
    revert b i. induction s as [|c s IH]; intros b i; cbn [boundary].
    - destruct (b =? 0); [intros [= <-]; simpl; lia|discriminate].
    - destruct (b =? 0); [intros [= <-]; simpl; lia|]. destruct (b <? utf8_len c); [discriminate|].
      destruct (boundary s (b - utf8_len c)) eqn:E; simpl; [|discriminate]. intros [= <-]. apply IH in E. simpl. lia.
  Qed.
  Lemma pad_slice s r : rstart r <= byte_len s -> rend r <= byte_len s -> byte_slice (pad s) (mvr r) = byte_slice s r.
  Proof.
    intros H1 H2. unfold byte_slice, moved. cbn [rstart rend fst snd]. unfold padded at 1 2. rewrite !boundary_blanks, !boundary_app by auto.
    destruct (boundary s (rstart r)) as [i|] eqn:Ei; auto. destruct (boundary s (rend r)) as [j|] eqn:Ej; auto. cbn [option_map].
    replace (n + i <=? n + j) with (i <=? j) by (destruct (Nat.leb_spec i j); symmetry; [apply Nat.leb_le|apply Nat.leb_gt]; lia).
    destruct (i <=? j); auto. f_equal. apply (pad_substring s (i, j)). apply boundary_length in Ej. exact Ej.
  Qed.

  (** ** Entities *)
  Definition moved_matched (e : MatchedEntity) : MatchedEntity := mkME (mvr (me_range e)) (me_name e).
  Definition moved_custom (e : CustomEntity) : CustomEntity :=
    mkCE (ce_value e) (ce_resolved e) (ce_alternatives e) (mvr (ce_range e)) (ce_entity e).
  Definition moved_internal (s : InternalSlot) : InternalSlot := mkIS (is_value s) (mvr (is_range s)) (is_entity s) (is_slot_name s).

  Lemma sort_start_rel {A} (start : A -> nat) (R : A -> A -> Prop) l l' : (forall a a', R a a' -> start a' = n + start a) -> Forall2 R l l' ->
    Forall2 R (sort_by_key (fun e => Z.of_nat (start e)) l) (sort_by_key (fun e => Z.of_nat (start e)) l').
  Proof.
    intros H. apply isort_rel. intros a a' b b' Ra Rb. rewrite (H _ _ Ra), (H _ _ Rb).
    destruct (Z.leb_spec (Z.of_nat (start a)) (Z.of_nat (start b))); symmetry; [apply Z.leb_le|apply Z.leb_gt]; lia.
  Qed.
  Lemma dedup_moved es : deduplicate_overlapping_entities (map moved_matched es) = map moved_matched (deduplicate_overlapping_entities es).
  Proof.
    apply mv_map. unfold deduplicate_overlapping_entities. apply sort_start_rel with (start := fun e => rstart (me_range e)); [intros a a' ->; reflexivity|].
    unfold deduplicate_overlapping_items. apply dedup_rel; [| |constructor].
    - intros a a' b b' -> ->. simpl. symmetry. apply moved_overlap.
    - apply sort_key_rel; [|apply mv_map; reflexivity]. intros a a' ->. unfold entity_sort_key. simpl. rewrite moved_length. reflexivity.
  Qed.

  (** ** Edits *)
  Definition moved_edit (e : edit) : edit := (mvr (fst e), snd e).
  Lemma edits_moved ph es : edits_of ph (map moved_matched es) = map moved_edit (edits_of ph es).
  Proof. unfold edits_of. rewrite !map_map. reflexivity. Qed.
  Lemma apply_moved s es : forall cur, edits_ok (length s) cur es ->
    apply_edits (pad s) (n + cur) (map moved_edit es) = apply_edits s cur es ++ repeat 32%N k.
  Proof.
    induction es as [|[r p] es IH]; intros cur OK; simpl in *.
    - unfold substring, rlen. cbn [rstart rend fst snd]. rewrite pad_length, skipn_pad, skipn_app.
      replace (cur - length s) with 0 by lia. simpl. rewrite firstn_all2; [|rewrite app_length, skipn_length, repeat_length; lia].
      f_equal. rewrite firstn_all2; auto. rewrite skipn_length. lia.
    - destruct OK as (O1 & O2 & O3 & O4). rewrite <- !app_assoc. f_equal.
      + apply (pad_substring s (cur, rstart r)). simpl. unfold rstart, rend in *. lia.
      + f_equal. apply (IH (rend r) O4).
  Qed.
  Lemma apply_moved_0 s es : edits_ok (length s) 0 es -> apply_edits (pad s) 0 (map moved_edit es) = pad (apply_edits s 0 es).
  Proof.
    intros OK. destruct es as [|[r p] es].
    - simpl. rewrite !substring_full. reflexivity.
    - cbn [map moved_edit apply_edits fst snd] in *. destruct OK as (O1 & O2 & O3 & O4). unfold moved. cbn [rstart rend fst snd].
      rewrite pad_prefix by (unfold rstart, rend in *; lia). unfold padded at 2. rewrite <- !app_assoc. do 3 f_equal.
      apply (apply_moved s es (rend r) O4).
  Qed.
  Definition moved_place (p : range * range) : range * range := (mvr (fst p), mvr (snd p)).
  Lemma positions_moved es : forall m cur pos, edits_ok m cur es ->
    edit_positions (n + cur) (n + pos) (map moved_edit es) = map moved_place (edit_positions cur pos es).
  Proof.
    induction es as [|[r p] es IH]; intros m cur pos OK; cbn [map moved_edit edit_positions edits_ok fst snd] in *; auto. destruct OK as (O1 & O2 & O3 & O4).
    change (rstart (mvr r)) with (n + rstart r). change (rend (mvr r)) with (n + rend r).
    replace (n + pos + (n + rstart r - (n + cur))) with (n + (pos + (rstart r - cur))) by lia.
    replace (n + (pos + (rstart r - cur)) + length p) with (n + (pos + (rstart r - cur) + length p)) by lia.
    f_equal. apply (IH m (rend r)). exact O4.
  Qed.
  Lemma positions_moved_0 es m : edits_ok m 0 es ->
    edit_positions 0 0 (map moved_edit es) = map moved_place (edit_positions 0 0 es).
  Proof.
    destruct es as [|[r p] es]; cbn [map moved_edit edit_positions edits_ok fst snd]; auto. intros (O1 & O2 & O3 & O4).
    change (rstart (mvr r)) with (n + rstart r). change (rend (mvr r)) with (n + rend r).
    rewrite !Nat.sub_0_r, !Nat.add_0_l, <- Nat.add_assoc.
    f_equal. apply (positions_moved es m (rend r)). exact O4.
  Qed.
End Pad.
