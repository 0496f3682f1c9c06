(** Proofs about the features of the slot filler. *)
From Coq Require Import String Ascii List NArith ZArith Bool Arith Lia.
From Coq Require Decimal DecimalString DecimalZ DecimalPos.
From Verif Require Import Base M_Types M_Crf M_Feat M_Features M_Filler S_Base S_Utils S_Det S_Crf S_Filler
  P_Base P_Utils P_Demo P_Feat P_Crf.
Import ListNotations.

(** ** C37 *)
Lemma chunk_prefix w k : get_word_chunk w k 0 false = if length w <? k then None else Some (firstn k w).
Proof. unfold get_word_chunk. cbn [andb]. reflexivity. Qed.
Lemma chunk_suffix w k : get_word_chunk w k (length w) true =
  if length w <? k then None else Some (skipn (length w - k) w).
Proof.
  unfold get_word_chunk. cbn [andb]. destruct (Nat.ltb_spec (length w) k); [reflexivity|].
  destruct (Nat.ltb_spec (length w) (length w - k + k)); [lia|]. f_equal.
  apply firstn_all2. rewrite skipn_length. lia.
Qed.

Lemma prefix_spec x k toks i t :
  nth_error toks i = Some t ->
  exists v, ft_compute (prefix_feature x k) toks i = Ok v /\
    let w := x_normalize x (tk_value t) in
    (forall p, v = Some p <-> length p = k /\ exists rest, w = p ++ rest) /\
    (v = None <-> length w < k).
Proof.
  intros Ht. eexists; split; [cbn [ft_compute prefix_feature]; unfold index; rewrite Ht; cbn [bind]; reflexivity|].
  cbv zeta. set (w := x_normalize x (tk_value t)). rewrite chunk_prefix.
  destruct (Nat.ltb_spec (length w) k) as [H|H].
  - split; [|split; auto; discriminate]. intros p. split; [discriminate|].
    intros [Hp [rest Hr]]. rewrite Hr, app_length in H. lia.
  - split; [|split; [discriminate|lia]]. intros p. split.
    + intros [= <-]. split; [apply firstn_length_le; exact H|]. exists (skipn k w). symmetry. apply firstn_skipn.
    + intros [Hp [rest Hr]]. rewrite Hr. f_equal. rewrite firstn_app, <- Hp, Nat.sub_diag, firstn_all. apply app_nil_r.
Qed.
Lemma suffix_spec x k toks i t :
  nth_error toks i = Some t ->
  exists v, ft_compute (suffix_feature x k) toks i = Ok v /\
    let w := x_normalize x (tk_value t) in
    (forall p, v = Some p <-> length p = k /\ exists rest, w = rest ++ p) /\
    (v = None <-> length w < k).
Proof.
  intros Ht. eexists; split; [cbn [ft_compute suffix_feature]; unfold index; rewrite Ht; cbn [bind]; reflexivity|].
  cbv zeta. set (w := x_normalize x (tk_value t)). rewrite chunk_suffix.
  destruct (Nat.ltb_spec (length w) k) as [H|H].
  - split; [|split; auto; discriminate]. intros p. split; [discriminate|].
    intros [Hp [rest Hr]]. rewrite Hr, app_length in H. lia.
  - split; [|split; [discriminate|lia]]. intros p. split.
    + intros [= <-]. split; [rewrite skipn_length; lia|]. exists (firstn (length w - k) w). symmetry. apply firstn_skipn.
    + intros [Hp [rest Hr]]. rewrite Hr. f_equal. rewrite app_length, Hp.
      replace (length rest + k - k) with (length rest) by lia. rewrite skipn_app, skipn_all, Nat.sub_diag. reflexivity.
Qed.

(** ** C38 *)
Lemma laid_out_tail t toks : laid_out (t :: toks) -> laid_out toks.
Proof.
  intros [H1 H2]. split; [intros; apply H1; right; assumption|].
  intros i j a b Hij Ha Hb. apply (H2 (S i) (S j) a b); [lia|exact Ha|exact Hb].
Qed.

Lemma chunks_spec toks : forall pre, laid_out toks ->
  (forall t, In t toks -> length pre <= rstart (tk_char_range t)) ->
  let s := pre ++ concat (token_chunks (length pre) toks) in
  (forall t, In t toks -> rend (tk_char_range t) <= length s /\ substring s (tk_char_range t) = tk_value t) /\
  (forall i, length pre <= i < length s -> (forall t, In t toks -> ~ in_range i (tk_char_range t)) ->
     nth_error s i = Some space) /\
  (toks <> [] -> exists before t, toks = before ++ [t] /\ length s = rend (tk_char_range t)).
Proof.
  induction toks as [|t toks IH]; intros pre Hl Hp s.
  - split; [intros t []|]. split; [|congruence]. unfold s. cbn [token_chunks concat]. rewrite app_nil_r. intros; lia.
  - pose proof (proj1 Hl t (or_introl eq_refl)) as [T1 T2].
    pose proof (Hp t (or_introl eq_refl)) as P1.
    set (gap := rstart (tk_char_range t) - length pre).
    set (pre' := pre ++ spaces gap ++ tk_value t).
    assert (Lg : length (spaces gap) = gap) by apply repeat_length.
    assert (Lp : length pre' = rend (tk_char_range t)).
    { unfold pre'. rewrite !app_length, Lg. unfold gap. lia. }
    assert (Hs : s = pre' ++ concat (token_chunks (length pre') toks)).
    { unfold s, pre'. cbn [token_chunks]. rewrite <- Lp. unfold pre'. rewrite concat_app. cbn [concat app].
      rewrite <- !app_assoc. f_equal.
      destruct (Nat.ltb_spec (length pre) (rstart (tk_char_range t))).
      - cbn [concat]. rewrite app_nil_r. fold gap. reflexivity.
      - replace gap with 0 by (unfold gap; lia). reflexivity. }
    destruct (IH pre') as (I1 & I2 & I3).
    + eapply laid_out_tail; exact Hl.
    + intros u Hu. rewrite Lp. apply In_nth_error in Hu. destruct Hu as [j Hj].
      apply (proj2 Hl 0 (S j) t u); [lia|reflexivity|exact Hj].
    + rewrite <- Hs in I1, I2, I3. cbv zeta in I1, I2, I3. split; [|split].
      * intros u [<-|Hu]; [|apply I1; exact Hu]. split; [rewrite Hs, app_length; lia|].
        rewrite Hs. unfold pre'. destruct (tk_char_range t) as [a b] eqn:Er. unfold rstart, rend in *; cbn [fst snd] in *.
        rewrite <- !app_assoc, (app_assoc pre). replace a with (length (pre ++ spaces gap)) by (rewrite app_length, Lg; unfold gap; lia).
        replace b with (length (pre ++ spaces gap) + length (tk_value t)) by (rewrite app_length, Lg; unfold gap; lia).
        apply substring_mid.
      * intros i Hi Hno. destruct (Nat.lt_ge_cases i (length pre')) as [Hlt|Hge].
        -- assert (Hi' : i < length pre + gap).
           { pose proof (Hno t (or_introl eq_refl)) as Hn. unfold in_range in Hn. unfold gap. lia. }
           rewrite Hs. unfold pre'. rewrite <- !app_assoc. rewrite nth_error_app2 by lia. rewrite nth_error_app1 by (rewrite Lg; lia).
           unfold spaces. apply nth_error_repeat. lia.
        -- apply I2; [lia|]. intros u Hu. apply Hno. right; exact Hu.
      * intros _. destruct toks as [|u toks].
        -- exists [], t. split; [reflexivity|]. rewrite Hs. cbn [token_chunks concat]. rewrite app_nil_r. exact Lp.
        -- destruct I3 as (before & v & E & L); [discriminate|]. exists (t :: before), v. rewrite E. split; [reflexivity|exact L].
Qed.

Lemma rebuild_spec toks : laid_out toks -> toks <> [] ->
  exists s, initial_string_from_tokens toks = Ok s /\ shows_tokens toks s.
Proof.
  intros Hl Hne. exists (concat (token_chunks 0 toks)). split.
  - unfold initial_string_from_tokens, usub. destruct toks as [|t r]; [congruence|].
    destruct (Nat.leb_spec 1 (2 * length (t :: r))); [reflexivity|cbn [length] in *; lia].
  - destruct (chunks_spec toks [] Hl) as (H1 & H2 & H3); [intros; cbn; lia|].
    change ([] ++ concat (token_chunks (length (@nil char)) toks)) with (concat (token_chunks 0 toks)) in *.
    split; [exact H1|]. split; [|apply H3; exact Hne]. intros i Hi. apply H2. cbn [length]. lia.
Qed.
Lemma rebuild_panics toks : initial_string_from_tokens toks = Panic <-> toks = [].
Proof.
  unfold initial_string_from_tokens, usub. destruct toks as [|t r]; [split; reflexivity|].
  destruct (Nat.leb_spec 1 (2 * length (t :: r))); [|cbn [length] in *; lia]. split; discriminate.
Qed.

Lemma tokens_ok_laid_out s toks : tokens_ok s toks -> laid_out toks.
Proof.
  intros [H1 H2]. split; [|exact H2]. intros t Ht. destruct (H1 t Ht) as ([W1 W2] & V & _).
  split; [lia|]. rewrite V, substring_length by lia. unfold rlen. lia.
Qed.

(** The rebuilt sentence is the text with blanks outside of the tokens, without what
    follows the last token. *)
Lemma rebuild_text text toks : tokens_ok text toks -> toks <> [] ->
  exists s n, initial_string_from_tokens toks = Ok s /\ n <= length text /\
    (forall t, In t toks -> rend (tk_char_range t) <= n) /\
    blanked (fun i => exists t, In t toks /\ in_range i (tk_char_range t)) (firstn n text) s.
Proof.
  intros Hok Hne. destruct (rebuild_spec toks (tokens_ok_laid_out _ _ Hok) Hne) as (s & E & H1 & H2 & (before & l & Hb & Hlen)).
  exists s, (length s). split; [exact E|].
  assert (Hn : length s <= length text).
  { destruct (proj1 Hok l) as ([W1 W2] & _); [rewrite Hb; apply in_or_app; right; left; reflexivity|]. lia. }
  split; [exact Hn|]. split; [intros t Ht; apply H1; exact Ht|].
  split; [rewrite firstn_length; lia|]. intros i Hi. rewrite firstn_length in Hi. split.
  - intros (t & Ht & Hr). destruct (H1 t Ht) as [L1 S1]. destruct (proj1 Hok t Ht) as ([W1 W2] & V & _).
    unfold char_at. rewrite nth_error_firstn by lia.
    assert (Hsame : substring s (tk_char_range t) = substring text (tk_char_range t)) by (rewrite S1; exact V).
    unfold in_range in Hr.
    assert (A : nth_error (substring s (tk_char_range t)) (i - rstart (tk_char_range t)) = char_at s i).
    { rewrite substring_char_at by (unfold rlen; lia). f_equal. lia. }
    assert (B : nth_error (substring text (tk_char_range t)) (i - rstart (tk_char_range t)) = char_at text i).
    { rewrite substring_char_at by (unfold rlen; lia). f_equal. lia. }
    unfold char_at in *. rewrite <- A, <- B, Hsame. reflexivity.
  - intros Hno. apply H2; [lia|]. intros t Ht Hr. apply Hno. exists t. auto.
Qed.

(** Normalised tokens. *)
Lemma transform_spec x st toks : forall c b,
  let out := transform_tokens_from x st c b toks in
  map tk_value out = map (fun t => stem_normalize x st (tk_value t)) toks /\
  laid_out out /\ (forall t, In t out -> c <= rstart (tk_char_range t)) /\
  (forall pre, length pre = c ->
     pre ++ concat (token_chunks c out) = pre ++ join [space] (map (fun t => stem_normalize x st (tk_value t)) toks)) /\
  (forall pre, length pre = c -> byte_len pre = b -> forall t, In t out ->
     let s := pre ++ join [space] (map (fun t => stem_normalize x st (tk_value t)) toks) in
     tk_range t = (byte_len (firstn (rstart (tk_char_range t)) s), byte_len (firstn (rend (tk_char_range t)) s))).
Proof.
  induction toks as [|t toks IH]; intros c b out.
  - split; [reflexivity|]. split; [split; [intros ? []|intros i j a b' _ H; destruct i; discriminate]|].
    split; [intros ? []|]. split; [reflexivity|intros pre _ _ ? []].
  - set (v := stem_normalize x st (tk_value t)) in *.
    destruct (IH (c + length v + 1) (b + byte_len v + 1)) as (I1 & I2 & I3 & I4 & I5). clear IH.
    set (out' := transform_tokens_from x st (c + length v + 1) (b + byte_len v + 1) toks) in *.
    assert (Hout : out = mkTok v (b, b + byte_len v) (c, c + length v) :: out') by reflexivity.
    rewrite Hout. clear Hout out. cbv zeta in *. split; [|split; [|split; [|split]]].
    + cbn [map tk_value]. f_equal. exact I1.
    + split.
      * intros u [<-|Hu]; [unfold rstart, rend; cbn [tk_char_range tk_value fst snd]; lia|apply I2; exact Hu].
      * intros i j p q Hij Hp Hq. destruct j as [|j]; [lia|]. cbn [nth_error] in Hq. destruct i as [|i].
        -- injection Hp as <-. pose proof (I3 q (nth_error_In _ _ Hq)). cbn [tk_char_range rend snd]. lia.
        -- apply (proj2 I2 i j p q); [lia|exact Hp|exact Hq].
    + intros u [<-|Hu]; [cbn [tk_char_range rstart fst]; lia|]. specialize (I3 u Hu). lia.
    + intros pre Hpre. f_equal. cbn [token_chunks tk_char_range tk_value rstart rend fst snd].
      rewrite Nat.ltb_irrefl. cbn [app concat map].
      destruct toks as [|u toks].
      * cbn [map join]. unfold out'. cbn [transform_tokens_from token_chunks concat]. rewrite app_nil_r. reflexivity.
      * cbn [map join] in *. fold v. f_equal.
        specialize (I4 (repeat space (c + length v + 1)) (repeat_length _ _)). apply app_inv_head in I4.
        unfold out' in *. cbn [transform_tokens_from token_chunks tk_char_range rstart rend fst snd tk_value] in *.
        rewrite Nat.ltb_irrefl in I4. cbn [app concat] in I4.
        destruct (Nat.ltb_spec (c + length v) (c + length v + 1)); [|lia].
        cbn [app concat]. replace (c + length v + 1 - (c + length v)) with 1 by lia. cbn [spaces repeat app]. f_equal. exact I4.
    + intros pre Hpre Hb u [<-|Hu].
      * cbn [tk_range tk_char_range rstart rend fst snd map].
        assert (Hj : exists rest, join [space] (v :: map (fun t => stem_normalize x st (tk_value t)) toks) = v ++ rest).
        { destruct toks; [exists []; cbn [map join]; rewrite app_nil_r; reflexivity|eexists; reflexivity]. }
        destruct Hj as [rest Hj]. fold v. rewrite Hj.
        assert (F1 : firstn c (pre ++ v ++ rest) = pre).
        { rewrite <- Hpre. rewrite firstn_app, firstn_all, Nat.sub_diag. apply app_nil_r. }
        assert (F2 : firstn (c + length v) (pre ++ v ++ rest) = pre ++ v).
        { rewrite app_assoc. replace (c + length v) with (length (pre ++ v)) by (rewrite app_length; lia).
          rewrite firstn_app, firstn_all, Nat.sub_diag. apply app_nil_r. }
        rewrite F1, F2, byte_len_app, Hb. reflexivity.
      * destruct toks as [|w toks]; [contradiction|]. cbn [map join] in *. fold v.
        assert (Hpre' : length (pre ++ v ++ [space]) = c + length v + 1) by (rewrite !app_length; cbn [length]; lia).
        assert (Hb' : byte_len (pre ++ v ++ [space]) = b + byte_len v + 1).
        { rewrite !byte_len_app, Hb. change (byte_len [space]) with 1. lia. }
        pose proof (I5 _ Hpre' Hb' u Hu) as E. rewrite E. rewrite <- !app_assoc. reflexivity.
Qed.

Lemma transform_rebuild x st toks : toks <> [] ->
  let out := transform_tokens x toks st in
  let s := join [space] (map (fun t => stem_normalize x st (tk_value t)) toks) in
  initial_string_from_tokens out = Ok s /\
  map tk_value out = map (fun t => stem_normalize x st (tk_value t)) toks /\
  forall t, In t out ->
    rend (tk_char_range t) <= length s /\ substring s (tk_char_range t) = tk_value t /\
    tk_range t = (byte_len (firstn (rstart (tk_char_range t)) s), byte_len (firstn (rend (tk_char_range t)) s)).
Proof.
  intros Hne out s. destruct (transform_spec x st toks 0 0) as (H1 & H2 & H3 & H4 & H5).
  fold (transform_tokens x toks st) in *. fold out in H1, H2, H3, H4, H5.
  specialize (H4 [] eq_refl). cbn [app] in H4. fold s in H4.
  assert (Ho : out <> []). { intros E. apply Hne. rewrite E in H1. destruct toks; [reflexivity|discriminate]. }
  destruct (rebuild_spec out H2 Ho) as (s' & E & Hs & _).
  assert (s' = s).
  { unfold initial_string_from_tokens in E. destruct (usub (2 * length out) 1); cbn [bind] in E; congruence. }
  subst s'. split; [exact E|]. split; [exact H1|]. intros t Ht. destruct (Hs t Ht) as [A B].
  split; [exact A|]. split; [exact B|]. exact (H5 [] eq_refl eq_refl t Ht).
Qed.

(** ** C39 *)
Lemma nth_error_seq n k : nth_error (seq 0 n) k = if k <? n then Some k else None.
Proof.
  destruct (Nat.ltb_spec k n).
  - rewrite (nth_error_nth' _ 0) by (rewrite seq_length; exact H). f_equal. rewrite seq_nth by exact H. reflexivity.
  - apply nth_error_None. rewrite seq_length. exact H.
Qed.
Lemma update_at_map {A} (f : A -> A) (g : nat -> A) n d : d < n ->
  update_at f d (map g (seq 0 n)) = Ok (map (fun j => if j =? d then f (g j) else g j) (seq 0 n)).
Proof.
  intros H. destruct (update_at_ok f d (map g (seq 0 n))) as (l' & E & L & N); [rewrite map_length, seq_length; exact H|].
  rewrite E. f_equal. apply nth_error_ext. intros k. rewrite N, !nth_error_map, nth_error_seq.
  destruct (Nat.ltb_spec k n); cbn [option_map]; [|destruct (k =? d); reflexivity].
  destruct (k =? d); reflexivity.
Qed.

Lemma as_i32_wrap z : (2 ^ 31 <= z < 2 ^ 32)%Z -> as_i32 z = (z - 2 ^ 32)%Z.
Proof.
  intros H. unfold as_i32, wrap. change (32 - 1)%Z with 31%Z.
  rewrite <- (Z.mod_unique (z + 2 ^ 31) (2 ^ 32) 1 (z + 2 ^ 31 - 2 ^ 32)); lia.
Qed.

Lemma offset_key_of f o : offset_key (ft_name f) o = key_of f o.
Proof.
  unfold offset_key, key_of. destruct (Z.eqb_spec o 0), (Z.eq_dec o 0); try reflexivity; contradiction.
Qed.

Definition at_offset (i j : nat) (o : Z) : bool := (Z.of_nat i - o =? Z.of_nat j)%Z.

Lemma push_offset_rows n i name v o g : i < n -> (Z.of_nat n < 2 ^ 31)%Z -> is_i32 o ->
  push_offset n i name v (Ok (map g (seq 0 n))) o =
  Ok (map (fun j => g j ++ if at_offset i j o then [(offset_key name o, v)] else []) (seq 0 n)).
Proof.
  intros Hi Hn Ho. unfold push_offset. cbn [bind]. unfold is_i32 in Ho.
  rewrite (as_i32_id (Z.of_nat i)) by lia. rewrite (as_i32_id (Z.of_nat n)) by lia.
  assert (Hnone : (forall j, j < n -> at_offset i j o = false) ->
     Ok (map g (seq 0 n)) = Ok (map (fun j => g j ++ if at_offset i j o then [(offset_key name o, v)] else []) (seq 0 n))).
  { intros H. f_equal. apply map_ext_in. intros j Hj. apply in_seq in Hj. rewrite H by lia. rewrite app_nil_r. reflexivity. }
  destruct (Z.lt_ge_cases (Z.of_nat i - o) (2 ^ 31)) as [Hlt|Hge].
  - rewrite as_i32_id by lia.
    destruct (Z.leb_spec 0 (Z.of_nat i - o)) as [H0|H0]; cbn [andb].
    + destruct (Z.ltb_spec (Z.of_nat i - o) (Z.of_nat n)) as [H1|H1].
      * unfold as_usize. rewrite Z.mod_small by lia. rewrite update_at_map by lia. f_equal. apply map_ext.
        intros j. unfold at_offset.
        destruct (Nat.eqb_spec j (Z.to_nat (Z.of_nat i - o))), (Z.eqb_spec (Z.of_nat i - o) (Z.of_nat j)); try reflexivity; try lia.
        rewrite app_nil_r. reflexivity.
      * apply Hnone. intros j Hj. unfold at_offset. apply Z.eqb_neq. lia.
    + apply Hnone. intros j Hj. unfold at_offset. apply Z.eqb_neq. lia.
  - rewrite as_i32_wrap by lia.
    destruct (Z.leb_spec 0 (Z.of_nat i - o - 2 ^ 32)); [lia|]. cbn [andb].
    apply Hnone. intros j Hj. unfold at_offset. apply Z.eqb_neq. lia.
Qed.

Definition offset_row (i : nat) (name v : str) (offs : list Z) (j : nat) : list (str * str) :=
  flat_map (fun o => if at_offset i j o then [(offset_key name o, v)] else []) offs.

Lemma push_offsets_rows n i name v : i < n -> (Z.of_nat n < 2 ^ 31)%Z -> forall offs g,
  (forall o, In o offs -> is_i32 o) ->
  fold_left (push_offset n i name v) offs (Ok (map g (seq 0 n))) =
  Ok (map (fun j => g j ++ offset_row i name v offs j) (seq 0 n)).
Proof.
  intros Hi Hn. induction offs as [|o offs IH]; intros g Ho.
  - cbn [fold_left offset_row flat_map]. f_equal. apply map_ext. intros j. symmetry. apply app_nil_r.
  - cbn [fold_left]. rewrite push_offset_rows by (assumption || apply Ho; left; reflexivity).
    rewrite IH by (intros; apply Ho; right; assumption). f_equal. apply map_ext. intros j.
    unfold offset_row. cbn [flat_map]. rewrite <- app_assoc. reflexivity.
Qed.

Definition value_row (fo : FeatureOffsetter) (i : nat) (v : option str) (j : nat) : list (str * str) :=
  match v with Some s => offset_row i (ft_name (fo_feature fo)) s (fo_offsets fo) j | None => [] end.

Lemma push_feature_rows toks fo i v g : i < length toks -> (Z.of_nat (length toks) < 2 ^ 31)%Z ->
  (forall o, In o (fo_offsets fo) -> is_i32 o) ->
  ft_compute (fo_feature fo) toks i = Ok v ->
  push_feature toks fo (Ok (map g (seq 0 (length toks)))) i =
  Ok (map (fun j => g j ++ value_row fo i v j) (seq 0 (length toks))).
Proof.
  intros Hi Hn Ho Hv. unfold push_feature. cbn [bind]. rewrite Hv. cbn [bind]. destruct v as [s|].
  - apply push_offsets_rows; assumption.
  - f_equal. apply map_ext. intros j. symmetry. apply app_nil_r.
Qed.

Lemma push_feature_not_ok toks fo l acc fs :
  fold_left (push_feature toks fo) l acc = Ok fs -> exists a, acc = Ok a.
Proof.
  revert acc; induction l as [|i l IH]; intros acc H; cbn [fold_left] in H; [eauto|].
  apply IH in H. destruct H as [a H]. unfold push_feature in H. destruct acc; cbn [bind] in H; [eauto|discriminate|discriminate].
Qed.

Definition feature_row (toks : list token) (fo : FeatureOffsetter) (is : list nat) (j : nat) : list (str * str) :=
  flat_map (fun i => match ft_compute (fo_feature fo) toks i with
                     | Ok v => value_row fo i v j
                     | _ => []
                     end) is.

Lemma push_features_rows toks fo : (Z.of_nat (length toks) < 2 ^ 31)%Z ->
  (forall o, In o (fo_offsets fo) -> is_i32 o) -> forall is g fs,
  (forall i, In i is -> i < length toks) ->
  fold_left (push_feature toks fo) is (Ok (map g (seq 0 (length toks)))) = Ok fs <->
  (forall i, In i is -> exists v, ft_compute (fo_feature fo) toks i = Ok v) /\
  fs = map (fun j => g j ++ feature_row toks fo is j) (seq 0 (length toks)).
Proof.
  intros Hn Ho. induction is as [|i is IH]; intros g fs His; cbn [fold_left feature_row flat_map].
  - split.
    + intros [= <-]. split; [intros i []|]. apply map_ext. intros j. symmetry. apply app_nil_r.
    + intros [_ ->]. f_equal. apply map_ext. intros j. symmetry. apply app_nil_r.
  - destruct (ft_compute (fo_feature fo) toks i) as [v|e|] eqn:Ev.
    + rewrite (push_feature_rows toks fo i v g (His i (or_introl eq_refl)) Hn Ho Ev).
      rewrite IH by (intros k Hk; apply His; right; exact Hk).
      assert (Hf : map (fun j => (g j ++ value_row fo i v j) ++ feature_row toks fo is j) (seq 0 (length toks))
                 = map (fun j => g j ++ value_row fo i v j ++ feature_row toks fo is j) (seq 0 (length toks))).
      { apply map_ext. intros j. symmetry. apply app_assoc. }
      split.
      * intros [H1 ->]. split; [|exact Hf]. intros k [<-|Hk]; [eauto|apply H1; exact Hk].
      * intros [H1 ->]. split; [|symmetry; exact Hf]. intros k Hk. apply H1. right; exact Hk.
    + split.
      * intros H. exfalso. apply push_feature_not_ok in H. destruct H as [a H].
        unfold push_feature in H. cbn [bind] in H. rewrite Ev in H. discriminate.
      * intros [H _]. destruct (H i (or_introl eq_refl)) as [v Hv]. congruence.
    + split.
      * intros H. exfalso. apply push_feature_not_ok in H. destruct H as [a H].
        unfold push_feature in H. cbn [bind] in H. rewrite Ev in H. discriminate.
      * intros [H _]. destruct (H i (or_introl eq_refl)) as [v Hv]. congruence.
Qed.

Definition all_rows (toks : list token) (fos : list FeatureOffsetter) (j : nat) : list (str * str) :=
  flat_map (fun fo => feature_row toks fo (seq 0 (length toks)) j) fos.

Lemma fold_fos_not_ok toks fos acc fs :
  fold_left (fun acc fo => fold_left (push_feature toks fo) (seq 0 (length toks)) acc) fos acc = Ok fs ->
  exists a, acc = Ok a.
Proof.
  revert acc; induction fos as [|fo fos IH]; intros acc H; cbn [fold_left] in H; [eauto|].
  apply IH in H. destruct H as [a H]. eapply push_feature_not_ok; exact H.
Qed.

Lemma compute_features_rows toks fos : (Z.of_nat (length toks) < 2 ^ 31)%Z ->
  forall g fs, (forall fo o, In fo fos -> In o (fo_offsets fo) -> is_i32 o) ->
  fold_left (fun acc fo => fold_left (push_feature toks fo) (seq 0 (length toks)) acc) fos
            (Ok (map g (seq 0 (length toks)))) = Ok fs <->
  (forall fo i, In fo fos -> i < length toks -> exists v, ft_compute (fo_feature fo) toks i = Ok v) /\
  fs = map (fun j => g j ++ all_rows toks fos j) (seq 0 (length toks)).
Proof.
  intros Hn. induction fos as [|fo fos IH]; intros g fs Ho; cbn [fold_left all_rows flat_map].
  - split.
    + intros [= <-]. split; [intros fo i []|]. apply map_ext. intros j. symmetry. apply app_nil_r.
    + intros [_ ->]. f_equal. apply map_ext. intros j. symmetry. apply app_nil_r.
  - assert (Hi : forall i, In i (seq 0 (length toks)) -> i < length toks) by (intros i H; apply in_seq in H; lia).
    pose proof (push_features_rows toks fo Hn (fun o => Ho fo o (or_introl eq_refl)) (seq 0 (length toks)) g) as Hp.
    assert (Hf : map (fun j => (g j ++ feature_row toks fo (seq 0 (length toks)) j) ++ all_rows toks fos j) (seq 0 (length toks))
               = map (fun j => g j ++ feature_row toks fo (seq 0 (length toks)) j ++ all_rows toks fos j) (seq 0 (length toks))).
    { apply map_ext. intros j. symmetry. apply app_assoc. }
    split.
    + intros H. destruct (fold_fos_not_ok _ _ _ _ H) as [a Ha]. rewrite Ha in H.
      apply (Hp a Hi) in Ha. destruct Ha as [H1 ->]. apply IH in H; [|intros; eapply Ho; [right|]; eassumption].
      destruct H as [H2 ->]. split; [|exact Hf].
      intros fo' i [<-|Hin] Hl; [apply H1; apply in_seq; lia|apply H2; assumption].
    + intros [H1 ->].
      rewrite (proj2 (Hp (map (fun j => g j ++ feature_row toks fo (seq 0 (length toks)) j) (seq 0 (length toks))) Hi)).
      * apply IH; [intros; eapply Ho; [right|]; eassumption|]. split; [|symmetry; exact Hf].
        intros fo' i Hin Hl. apply H1; [right; exact Hin|exact Hl].
      * split; [|reflexivity]. intros i Hin. apply H1; [left; reflexivity|apply Hi; exact Hin].
Qed.

Lemma repeat_map_seq {A} (a : A) n : repeat a n = map (fun _ => a) (seq 0 n).
Proof.
  symmetry. rewrite <- (map_map (fun _ => tt) (fun _ => a)).
  assert (H : forall s, map (fun _ : nat => tt) (seq s n) = repeat tt n).
  { induction n as [|n IH]; intros s; [reflexivity|]. cbn [seq map repeat]. rewrite IH. reflexivity. }
  rewrite H. clear H. induction n as [|n IH]; [reflexivity|]. cbn [repeat map]. rewrite IH. reflexivity.
Qed.

Lemma features_total toks fos :
  (Z.of_nat (length toks) < 2 ^ 31)%Z -> (forall fo o, In fo fos -> In o (fo_offsets fo) -> is_i32 o) ->
  ((exists fs, compute_features fos toks = Ok fs) <->
   forall fo i, In fo fos -> i < length toks -> exists v, ft_compute (fo_feature fo) toks i = Ok v).
Proof.
  intros Hn Ho. unfold compute_features. rewrite repeat_map_seq. split.
  - intros [fs H]. apply compute_features_rows in H; [apply H|exact Hn|exact Ho].
  - intros H. eexists. apply compute_features_rows; [exact Hn|exact Ho|]. split; [exact H|reflexivity].
Qed.

Lemma features_at_offset toks fos fs :
  (Z.of_nat (length toks) < 2 ^ 31)%Z -> (forall fo o, In fo fos -> In o (fo_offsets fo) -> is_i32 o) ->
  compute_features fos toks = Ok fs ->
  length fs = length toks /\
  forall j row key v, nth_error fs j = Some row ->
    (In (key, v) row <->
     exists fo o i, In fo fos /\ In o (fo_offsets fo) /\ key = key_of (fo_feature fo) o /\
       (Z.of_nat i = Z.of_nat j + o)%Z /\ i < length toks /\
       ft_compute (fo_feature fo) toks i = Ok (Some v)).
Proof.
  intros Hn Ho H. unfold compute_features in H. rewrite repeat_map_seq in H.
  apply compute_features_rows in H; [|exact Hn|exact Ho]. destruct H as [_ ->]. cbn [app].
  split; [rewrite map_length, seq_length; reflexivity|].
  intros j row key v Hj. rewrite nth_error_map, nth_error_seq in Hj.
  destruct (Nat.ltb_spec j (length toks)) as [Hl|Hl]; [|discriminate]. cbn [option_map] in Hj. injection Hj as <-.
  unfold all_rows. rewrite in_flat_map. split.
  - intros (fo & Hfo & Hin). unfold feature_row in Hin. apply in_flat_map in Hin. destruct Hin as (i & Hi & Hin).
    apply in_seq in Hi. destruct (ft_compute (fo_feature fo) toks i) as [[s|]|e|] eqn:Ev; try contradiction.
    unfold value_row, offset_row in Hin. apply in_flat_map in Hin. destruct Hin as (o & Ho' & Hin).
    destruct (at_offset i j o) eqn:Ea; [|contradiction]. destruct Hin as [[= <- <-]|[]].
    unfold at_offset in Ea. apply Z.eqb_eq in Ea.
    exists fo, o, i. rewrite offset_key_of. repeat split; auto; lia.
  - intros (fo & o & i & Hfo & Ho' & -> & Hi & Hlt & Hc). exists fo. split; [exact Hfo|].
    unfold feature_row. apply in_flat_map. exists i. split; [apply in_seq; lia|]. rewrite Hc.
    unfold value_row, offset_row. apply in_flat_map. exists o. split; [exact Ho'|].
    unfold at_offset. rewrite (proj2 (Z.eqb_eq _ _)) by lia. left. rewrite offset_key_of. reflexivity.
Qed.

(** Keys. *)
Lemma str_of_string_inj s t : str_of_string s = str_of_string t -> s = t.
Proof.
  revert t; induction s as [|a s IH]; intros [|b t] H; try discriminate; [reflexivity|].
  cbn [str_of_string] in H. injection H as H1 H2. f_equal; [|apply IH; exact H2].
  rewrite <- (ascii_N_embedding a), <- (ascii_N_embedding b), H1. reflexivity.
Qed.
Lemma to_int_not_nil z : Z.to_int z <> Decimal.Pos Decimal.Nil /\ Z.to_int z <> Decimal.Neg Decimal.Nil.
Proof.
  destruct z; cbn [Z.to_int]; split; try discriminate; intros H; injection H as H;
    exact (DecimalPos.Unsigned.to_uint_nonnil _ H).
Qed.
Lemma show_Z_inj a b : show_Z a = show_Z b -> a = b.
Proof.
  unfold show_Z. intros H. apply str_of_string_inj in H.
  pose proof (to_int_not_nil a) as [A1 A2]. pose proof (to_int_not_nil b) as [B1 B2].
  pose proof (DecimalString.NilZero.isi (Z.to_int a) A1 A2) as Ea. pose proof (DecimalString.NilZero.isi (Z.to_int b) B1 B2) as Eb.
  rewrite H in Ea. rewrite Ea in Eb. injection Eb as Eb. apply DecimalZ.to_int_inj. exact Eb.
Qed.
Lemma show_Z_neg a : (a < 0)%Z -> exists r, show_Z a = $"-" ++ r.
Proof.
  intros H. destruct a as [|p|p]; [lia|lia|]. unfold show_Z. cbn [Z.to_int DecimalString.NilZero.string_of_int str_of_string].
  eexists. reflexivity.
Qed.
Lemma show_signed_inj a b : show_signed a = show_signed b -> a = b.
Proof.
  unfold show_signed. destruct (Z.ltb_spec a 0), (Z.ltb_spec b 0); intros H'.
  - apply show_Z_inj; exact H'.
  - destruct (show_Z_neg a H) as [r E]. rewrite E in H'. discriminate.
  - destruct (show_Z_neg b H0) as [r E]. rewrite E in H'. discriminate.
  - apply app_inv_head in H'. apply show_Z_inj; exact H'.
Qed.
Lemma split_at_bracket (a b r r' : str) c :
  ~ In c a -> ~ In c b -> a ++ c :: r = b ++ c :: r' -> a = b /\ r = r'.
Proof.
  revert b; induction a as [|x a IH]; intros [|y b] Ha Hb H; cbn [app] in H.
  - injection H as ->. auto.
  - injection H as -> _. exfalso. apply Hb. left; reflexivity.
  - injection H as -> _. exfalso. apply Ha. left; reflexivity.
  - injection H as -> H. destruct (IH b) as [-> ->]; auto; intros Hin; [apply Ha|apply Hb]; right; exact Hin.
Qed.
Lemma key_of_inj f g o o' :
  ~ In 91%N (ft_name f) -> ~ In 91%N (ft_name g) -> key_of f o = key_of g o' -> ft_name f = ft_name g /\ o = o'.
Proof.
  intros Hf Hg. unfold key_of. change ($"[") with [91%N].
  destruct (Z.eq_dec o 0), (Z.eq_dec o' 0); intros H.
  - subst; auto.
  - exfalso. apply Hf. rewrite H. apply in_or_app. right. left. reflexivity.
  - exfalso. apply Hg. rewrite <- H. apply in_or_app. right. left. reflexivity.
  - cbn [app] in H. destruct (split_at_bracket _ _ _ _ _ Hf Hg H) as [E1 E2]. split; [exact E1|].
    apply app_inv_tail in E2. apply show_signed_inj; exact E2.
Qed.
