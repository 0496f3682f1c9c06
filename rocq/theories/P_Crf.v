(** Lemmas about tag sequences. *)
From Coq Require Import String List NArith ZArith Bool Arith Lia Sorted.
From Verif Require Import Base M_Types M_Crf S_Base S_Utils S_Det S_Crf P_Base P_Utils.
Import ListNotations.

Lemma starts_with_spec p s : starts_with p s = true <-> has_prefix p s.
Proof.
  unfold has_prefix. revert s; induction p as [|c p IH]; intros s; simpl.
  - split; [intros _; exists s; reflexivity|reflexivity].
  - destruct s as [|d s]; [split; [discriminate|intros [r Hr]; discriminate]|].
    rewrite andb_true_iff, N.eqb_eq, IH. split.
    + intros [-> [r ->]]. exists r. reflexivity.
    + intros [r Hr]. inversion Hr; subst. split; [reflexivity|]. exists r. reflexivity.
Qed.
Lemma starts_with_false p s : starts_with p s = false <-> ~ has_prefix p s.
Proof. rewrite <- starts_with_spec. destruct (starts_with p s); split; congruence. Qed.

Lemma is_outside_spec t : is_outside t = true <-> t = $"O".
Proof. apply str_eqb_spec. Qed.
Lemma is_outside_false t : is_outside t = false <-> t <> $"O".
Proof. apply str_eqb_neq. Qed.

(** ** Boolean view *)
Definition tb (tags : list str) (i : nat) : bool :=
  match nth_error tags i with Some t => negb (is_outside t) | None => false end.
Definition sepb (sc : TaggingScheme) (t t' : str) : bool :=
  match sc with
  | IO => false
  | BIO => negb (starts_with INSIDE_PREFIX t')
  | BILOU => starts_with LAST_PREFIX t || starts_with UNIT_PREFIX t
             || starts_with BEGINNING_PREFIX t' || starts_with UNIT_PREFIX t'
  end.
Definition eb (sc : TaggingScheme) (tags : list str) (i : nat) : bool :=
  match nth_error tags i with
  | None => false
  | Some t => if is_outside t then false
              else match nth_error tags (i + 1) with
                   | None => true
                   | Some t' => is_outside t' || sepb sc t t'
                   end
  end.
Definition openb (T E : nat -> bool) (i : nat) : bool :=
  match i with 0 => false | S j => T j && negb (E j) end.

Definition is_start (sc : TaggingScheme) : list str -> nat -> outcome bool :=
  match sc with
  | IO => is_start_of_io_slot | BIO => is_start_of_bio_slot | BILOU => is_start_of_bilou_slot
  end.
Definition is_end (sc : TaggingScheme) : list str -> nat -> outcome bool :=
  match sc with
  | IO => is_end_of_io_slot | BIO => is_end_of_bio_slot | BILOU => is_end_of_bilou_slot
  end.

Lemma tags_to_slot_ranges_eq toks tags sc :
  tags_to_slot_ranges toks tags sc = tags_loop toks (is_start sc tags) (is_end sc tags) 0 0 tags.
Proof. destruct sc; reflexivity. Qed.

Lemma inside_not_outside t : starts_with INSIDE_PREFIX t = true -> is_outside t = false.
Proof.
  intros H. apply starts_with_spec in H. destruct H as [r ->]. apply is_outside_false. discriminate.
Qed.

Lemma is_end_spec sc tags i : i < length tags -> is_end sc tags i = Ok (eb sc tags i).
Proof.
  intros Hi. destruct (nth_error tags i) as [t|] eqn:Et; [|apply nth_error_None in Et; lia].
  assert (Hn : i + 1 <> length tags -> exists t', nth_error tags (i + 1) = Some t').
  { intros Hne. destruct (nth_error tags (i + 1)) eqn:E; [eauto|apply nth_error_None in E; lia]. }
  destruct sc; cbn [is_end]; unfold is_end_of_io_slot, is_end_of_bio_slot, is_end_of_bilou_slot, eb, index;
    rewrite Et; cbn [bind];
    (destruct (Nat.eqb_spec (i + 1) (length tags)) as [He|He];
     [rewrite (proj2 (nth_error_None tags (i + 1))) by lia; destruct (is_outside t); reflexivity
     |destruct (Hn He) as [t' ->]; destruct (is_outside t); cbn [bind sepb]; [reflexivity|]]).
  - rewrite orb_false_r. reflexivity.
  - destruct (starts_with INSIDE_PREFIX t') eqn:E; [|rewrite orb_true_r; reflexivity].
    rewrite (inside_not_outside _ E). reflexivity.
  - rewrite !orb_assoc. reflexivity.
Qed.

Definition sb (sc : TaggingScheme) (tags : list str) (i : nat) : bool :=
  match nth_error tags i with
  | None => false
  | Some t => negb (is_outside t) &&
      match i with
      | 0 => true
      | S j => match nth_error tags j with
               | None => true
               | Some p => is_outside p ||
                   match sc with
                   | IO => false
                   | BIO => starts_with BEGINNING_PREFIX t
                   | BILOU => sepb BILOU p t
                   end
               end
      end
  end.

Lemma is_start_spec sc tags i : i < length tags -> is_start sc tags i = Ok (sb sc tags i).
Proof.
  intros Hi. destruct (nth_error tags i) as [t|] eqn:Et; [|apply nth_error_None in Et; lia].
  assert (Hp : forall j, i = S j -> exists t', nth_error tags j = Some t').
  { intros j ->. destruct (nth_error tags j) eqn:E; [eauto|apply nth_error_None in E; lia]. }
  destruct sc; cbn [is_start];
    unfold is_start_of_io_slot, is_start_of_bio_slot, is_start_of_bilou_slot, sb, index;
    rewrite Et; cbn [bind]; (destruct i as [|j]; [cbn [Nat.eqb]; rewrite andb_true_r; reflexivity|]);
    cbn [Nat.eqb]; replace (S j - 1) with j by lia; destruct (Hp j eq_refl) as [p ->];
    destruct (is_outside t); cbn [negb andb bind]; try reflexivity.
  - rewrite orb_false_r; reflexivity.
  - destruct (starts_with BEGINNING_PREFIX t); [rewrite orb_true_r; reflexivity|].
    rewrite orb_false_r; reflexivity.
  - unfold sepb. destruct (starts_with BEGINNING_PREFIX t), (starts_with UNIT_PREFIX t),
      (starts_with UNIT_PREFIX p), (starts_with LAST_PREFIX p), (is_outside p); reflexivity.
Qed.

Lemma tb_spec tags i : tb tags i = true <-> tagged tags i.
Proof.
  unfold tb, tagged. destruct (nth_error tags i) as [t|].
  - rewrite negb_true_iff, is_outside_false. split; [eauto|intros (t' & [= <-] & H); exact H].
  - split; [discriminate|intros (t' & H & _); discriminate].
Qed.
Lemma tb_false tags i : tb tags i = false <-> ~ tagged tags i.
Proof. rewrite <- tb_spec. destruct (tb tags i); split; congruence. Qed.

Lemma eb_tb sc tags i : eb sc tags i = true -> tb tags i = true.
Proof.
  unfold eb, tb. destruct (nth_error tags i) as [t|]; [|discriminate].
  destruct (is_outside t); [discriminate|reflexivity].
Qed.
Lemma tb_eb sc tags i : tb tags i = true -> tb tags (i + 1) = false -> eb sc tags i = true.
Proof.
  unfold eb, tb. destruct (nth_error tags i) as [t|]; [|discriminate].
  destruct (is_outside t); [discriminate|]. intros _.
  destruct (nth_error tags (i + 1)) as [t'|]; [|reflexivity].
  destruct (is_outside t'); [reflexivity|discriminate].
Qed.
Lemma tb_last tags i : length tags <= i -> tb tags i = false.
Proof. intros H. unfold tb. rewrite (proj2 (nth_error_None tags i)) by exact H. reflexivity. Qed.

(** In the alphabet of BIO, a tag that is neither O nor B- is I-. *)
Lemma bio_tag t : in_alphabet BIO t -> is_outside t = false ->
  starts_with BEGINNING_PREFIX t = negb (starts_with INSIDE_PREFIX t).
Proof.
  intros [->|[[r ->]|[r ->]]] H; [discriminate| |]; reflexivity.
Qed.

Lemma sb_open sc tags i : Forall (in_alphabet sc) tags -> i < length tags ->
  sb sc tags i = tb tags i && negb (openb (tb tags) (eb sc tags) i).
Proof.
  intros Hal Hi. unfold sb. destruct (nth_error tags i) as [t|] eqn:Et; [|apply nth_error_None in Et; lia].
  unfold tb at 1. rewrite Et. destruct (is_outside t) eqn:Eo; [reflexivity|]. cbn [negb andb].
  destruct i as [|j]; [reflexivity|]. cbn [openb].
  destruct (nth_error tags j) as [p|] eqn:Ep; [|apply nth_error_None in Ep; lia].
  unfold tb, eb. rewrite Ep. replace (j + 1) with (S j) by lia. rewrite Et.
  destruct (is_outside p) eqn:Eop; [reflexivity|]. cbn [negb andb orb]. rewrite Eo. cbn [orb].
  rewrite negb_involutive. destruct sc; try reflexivity.
  cbn [sepb]. apply bio_tag; [|exact Eo].
  rewrite Forall_forall in Hal. apply Hal. eapply nth_error_In; exact Et.
Qed.

(** ** The loop, on indices *)
Fixpoint segs_loop (S E : nat -> bool) (cur i k : nat) : list range :=
  match k with
  | 0 => []
  | Datatypes.S k' =>
      let cur := if S i then i else cur in
      if E i then (cur, i + 1) :: segs_loop S E i (i + 1) k'
      else segs_loop S E cur (i + 1) k'
  end.

Lemma tags_loop_segs toks tags sc : length tags <= length toks -> forall rest i cur,
  skipn i tags = rest -> i <= length tags -> cur <= i ->
  exists slots, tags_loop toks (is_start sc tags) (is_end sc tags) cur i rest = Ok slots /\
    Forall2 (slot_of_segment toks tags) (segs_loop (sb sc tags) (eb sc tags) cur i (length rest)) slots.
Proof.
  intros Hlen. induction rest as [|tag rest IH]; intros i cur Hs Hi Hc; [exists []; split; constructor|].
  assert (Hi' : i < length tags).
  { destruct (Nat.lt_ge_cases i (length tags)); [assumption|].
    rewrite skipn_all2 in Hs by lia. discriminate. }
  assert (Ht : nth_error tags i = Some tag).
  { replace i with (i + 0) by lia. rewrite <- nth_error_skipn, Hs. reflexivity. }
  assert (Hs' : skipn (i + 1) tags = rest).
  { rewrite <- skipn_skipn, Hs. reflexivity. }
  cbn [tags_loop length segs_loop]. rewrite is_start_spec, is_end_spec by exact Hi'. cbn [bind].
  set (c := if sb sc tags i then i else cur).
  assert (Hc' : c <= i) by (unfold c; destruct (sb sc tags i); lia).
  destruct (eb sc tags i).
  - destruct (IH (i + 1) i Hs' ltac:(lia) ltac:(lia)) as (slots & E & HF).
    destruct (nth_error toks c) as [a|] eqn:Ea; [|apply nth_error_None in Ea; lia].
    destruct (nth_error toks i) as [b|] eqn:Eb; [|apply nth_error_None in Eb; lia].
    unfold index. rewrite Ea, Eb. cbn [bind]. rewrite E. cbn [bind].
    eexists; split; [reflexivity|]. constructor; [|exact HF].
    unfold slot_of_segment, spans; cbn [rstart rend fst snd sr_range sr_char_range sr_name].
    replace (i + 1 - 1) with i by lia.
    split; [exists a, b; auto|]. exists tag. auto.
  - apply IH; [exact Hs'|lia|lia].
Qed.

Lemma decode_segs toks tags sc : length tags <= length toks ->
  exists slots, tags_to_slot_ranges toks tags sc = Ok slots /\
    Forall2 (slot_of_segment toks tags) (segs_loop (sb sc tags) (eb sc tags) 0 0 (length tags)) slots.
Proof.
  intros H. rewrite tags_to_slot_ranges_eq.
  apply tags_loop_segs; [exact H|reflexivity|lia|lia].
Qed.

(** Whatever the predicates, the groups are non-empty and inside. *)
Lemma segs_loop_wf (S E : nat -> bool) : forall k cur i, cur <= i ->
  forall s, In s (segs_loop S E cur i k) -> rstart s < rend s /\ i < rend s /\ rend s <= i + k /\ E (rend s - 1) = true.
Proof.
  induction k as [|k IH]; intros cur i Hc s Hin; [contradiction|]. cbn [segs_loop] in Hin.
  set (c := if S i then i else cur) in *.
  assert (c <= i) by (unfold c; destruct (S i); lia).
  destruct (E i) eqn:Ei.
  - destruct Hin as [<-|Hin].
    + unfold rstart, rend; cbn [fst snd]. replace (i + 1 - 1) with i by lia. repeat split; try lia; exact Ei.
    + apply IH in Hin; [|lia]. destruct Hin as (? & ? & ? & ?). repeat split; try lia; assumption.
  - apply IH in Hin; [|lia]. destruct Hin as (? & ? & ? & ?). repeat split; try lia; assumption.
Qed.
Lemma segs_loop_ends (S E : nat -> bool) : forall k cur i j, i <= j < i + k -> E j = true ->
  exists s, In s (segs_loop S E cur i k) /\ rend s = j + 1.
Proof.
  induction k as [|k IH]; intros cur i j Hj Ej; [lia|]. cbn [segs_loop].
  set (c := if S i then i else cur).
  destruct (Nat.eq_dec j i) as [->|Hne].
  - rewrite Ej. exists (c, i + 1). split; [left; reflexivity|reflexivity].
  - destruct (E i).
    + destruct (IH i (i + 1) j ltac:(lia) Ej) as (s & H1 & H2). exists s. split; [right; exact H1|exact H2].
    + apply IH; [lia|exact Ej].
Qed.

Section Segs.
  Variables (T S E : nat -> bool) (n : nat).
  Hypothesis ET : forall i, E i = true -> T i = true.
  Hypothesis TE : forall i, T i = true -> T (i + 1) = false -> E i = true.
  Hypothesis Tn : forall i, n <= i -> T i = false.
  Hypothesis SO : forall i, i < n -> S i = T i && negb (openb T E i).

  Lemma segs_loop_spec : forall k cur i, i + k = n -> cur <= i ->
    (openb T E i = true -> cur < i /\ forall j, cur <= j < i -> T j = true /\ E j = false) ->
    let base := if openb T E i then cur else i in
    let segs := segs_loop S E cur i k in
    (forall s, In s segs -> base <= rstart s /\ forall j, in_range j s -> T j = true /\ (E j = true <-> j + 1 = rend s)) /\
    (forall j, base <= j < n -> T j = true -> exists s, In s segs /\ in_range j s) /\
    StronglySorted (fun a b => rend a <= rstart b) segs.
  Proof.
    induction k as [|k IH]; intros cur i Hk Hcur Hopen base segs; cbn [segs_loop] in segs.
    - unfold segs, base. split; [intros s []|]. split; [|constructor].
      intros j Hj Tj. destruct (openb T E i) eqn:Eo; [|lia]. exfalso.
      destruct i as [|i']; [discriminate|]. cbn [openb] in Eo. apply andb_prop in Eo. destruct Eo as [Eo1 Eo2].
      rewrite (TE i' Eo1) in Eo2; [discriminate|]. apply Tn. lia.
    - set (c := if S i then i else cur) in *.
      assert (Hrun : T i = true -> c <= i /\ base <= c /\ (openb T E i = false -> c = i)
                     /\ (openb T E i = true -> c = cur) /\
                     forall j, c <= j < i -> T j = true /\ E j = false).
      { intros Ti. unfold c, base. rewrite (SO i) by lia. rewrite Ti. cbn [andb].
        destruct (openb T E i) eqn:Eo; cbn [negb].
        - destruct (Hopen eq_refl) as [H1 H2]. repeat split; try lia; try discriminate; apply H2; assumption.
        - repeat split; try lia; try discriminate; intros; lia. }
      assert (Hseg : forall r, E i = true -> T i = true -> segs = (c, i + 1) :: r ->
        r = segs_loop S E i (i + 1) k ->
        (forall s, In s segs -> base <= rstart s /\ forall j, in_range j s -> T j = true /\ (E j = true <-> j + 1 = rend s)) /\
        (forall j, base <= j < n -> T j = true -> exists s, In s segs /\ in_range j s) /\
        StronglySorted (fun a b => rend a <= rstart b) segs).
      { intros r Ei Ti Hsegs Hr. destruct (Hrun Ti) as (R1 & R2 & R3 & R4 & R5).
        assert (Ho : openb T E (i + 1) = false).
        { replace (i + 1) with (Datatypes.S i) by lia. cbn [openb]. rewrite Ei, andb_false_r. reflexivity. }
        destruct (IH i (i + 1) ltac:(lia) ltac:(lia)) as (I1 & I2 & I3); [rewrite Ho; discriminate|].
        rewrite Ho in I1, I2. rewrite <- Hr in I1, I2, I3. rewrite Hsegs. clear segs Hsegs.
        split; [|split].
        - intros s [<-|Hs].
          + split; [exact R2|]. unfold in_range, rstart, rend; cbn [fst snd]. intros j Hj.
            destruct (Nat.eq_dec j i) as [->|Hne]; [split; [exact Ti|split; [lia|intros _; exact Ei]]|].
            destruct (R5 j ltac:(lia)) as [H1 H2]. split; [exact H1|]. rewrite H2.
            split; [discriminate|intros; lia].
          + destruct (I1 s Hs) as [H1 H2]. split; [|exact H2]. lia.
        - intros j Hj Tj. destruct (Nat.le_gt_cases (i + 1) j) as [Hge|Hlt].
          + destruct (I2 j ltac:(lia) Tj) as (s & H1 & H2). exists s. split; [right; exact H1|exact H2].
          + exists (c, i + 1). split; [left; reflexivity|]. unfold in_range, rstart, rend; cbn [fst snd].
            split; [|lia]. unfold base in Hj. destruct (openb T E i) eqn:Eo.
            * rewrite (R4 eq_refl). lia.
            * rewrite (R3 eq_refl). lia.
        - constructor; [exact I3|]. apply Forall_forall. intros s Hs. destruct (I1 s Hs) as [H1 _].
          cbn [rend snd]. exact H1. }
      destruct (E i) eqn:Ei; [eapply Hseg; [reflexivity|apply ET; exact Ei|reflexivity|reflexivity]|].
      clear Hseg.
      destruct (T i) eqn:Ti.
      + destruct (Hrun eq_refl) as (R1 & R2 & R3 & R4 & R5).
        assert (Ho : openb T E (i + 1) = true).
        { replace (i + 1) with (Datatypes.S i) by lia. cbn [openb]. rewrite Ti, Ei. reflexivity. }
        destruct (IH c (i + 1) ltac:(lia) ltac:(lia)) as (I1 & I2 & I3).
        { intros _. split; [lia|]. intros j Hj. destruct (Nat.eq_dec j i) as [->|Hne]; [auto|]. apply R5. lia. }
        rewrite Ho in I1, I2. fold segs in I1, I2, I3. split; [|split].
        * intros s Hs. destruct (I1 s Hs) as [H1 H2]. split; [lia|exact H2].
        * intros j Hj Tj. apply I2; [|exact Tj]. split; [|lia]. unfold base in Hj.
          destruct (openb T E i) eqn:Eo; [rewrite (R4 eq_refl); lia|rewrite (R3 eq_refl); lia].
        * exact I3.
      + assert (Ho : openb T E (i + 1) = false).
        { replace (i + 1) with (Datatypes.S i) by lia. cbn [openb]. rewrite Ti. reflexivity. }
        assert (Hc : c <= i) by (unfold c; destruct (S i); lia).
        destruct (IH c (i + 1) ltac:(lia) ltac:(lia)) as (I1 & I2 & I3); [rewrite Ho; discriminate|].
        rewrite Ho in I1, I2. fold segs in I1, I2, I3.
        assert (Hno : openb T E i = false).
        { destruct (openb T E i) eqn:Eo; [|reflexivity]. destruct i as [|i']; [discriminate|].
          cbn [openb] in Eo. apply andb_prop in Eo. destruct Eo as [Eo1 Eo2].
          rewrite (TE i' Eo1) in Eo2; [discriminate|]. replace (i' + 1) with (Datatypes.S i') by lia. exact Ti. }
        unfold base. rewrite Hno. split; [|split].
        * intros s Hs. destruct (I1 s Hs) as [H1 H2]. split; [lia|exact H2].
        * intros j Hj Tj. apply I2; [|exact Tj].
          assert (j <> i) by (intros ->; congruence). lia.
        * exact I3.
  Qed.
End Segs.

(** A list of groups with the same first and last tokens is the result of the loop. *)
Lemma segs_loop_unique (S E : nat -> bool) : forall k cur i l,
  StronglySorted (fun a b => rend a <= rstart b) l ->
  (forall s, In s l -> rstart s < rend s /\ i < rend s /\ rend s <= i + k) ->
  (forall j, i <= j < i + k -> (E j = true <-> exists s, In s l /\ rend s = j + 1)) ->
  (forall j, i <= j < i + k -> (S j = true <-> exists s, In s l /\ rstart s = j)) ->
  (forall s r, l = s :: r -> rstart s < i -> cur = rstart s) ->
  segs_loop S E cur i k = l.
Proof.
  induction k as [|k IH]; intros cur i l Hso Hwf HE HS Hcur.
  - destruct l as [|s l]; [reflexivity|]. destruct (Hwf s (or_introl eq_refl)). lia.
  - cbn [segs_loop]. destruct (E i) eqn:Ei.
    + destruct (proj1 (HE i ltac:(lia)) Ei) as (s & Hs & Hend).
      destruct l as [|h l]; [contradiction|]. inversion Hso as [|? ? Hso' Hf]; subst.
      rewrite Forall_forall in Hf. pose proof (Hwf h (or_introl eq_refl)) as Hh.
      assert (s = h). { destruct Hs as [->|Hs]; [reflexivity|]. specialize (Hf s Hs). specialize (Hwf s (or_intror Hs)). lia. }
      subst s. f_equal.
      * destruct (S i) eqn:Si.
        -- destruct (proj1 (HS i ltac:(lia)) Si) as (s & Hs' & Hst).
           destruct Hs' as [->|Hs']; [destruct s; unfold rstart, rend in *; cbn [fst snd] in *; subst; reflexivity|].
           specialize (Hf s Hs'). lia.
        -- assert (rstart h <> i).
           { intros He. rewrite (proj2 (HS i ltac:(lia))) in Si; [discriminate|]. exists h. split; [left; reflexivity|exact He]. }
           rewrite (Hcur h l eq_refl) by lia. destruct h; unfold rstart, rend in *; cbn [fst snd] in *; subst; reflexivity.
      * apply IH.
        -- exact Hso'.
        -- intros s Hs'. specialize (Hwf s (or_intror Hs')). specialize (Hf s Hs'). lia.
        -- intros j Hj. rewrite (HE j ltac:(lia)). split.
           ++ intros (s & [<-|Hs'] & He); [lia|]. exists s. auto.
           ++ intros (s & Hs' & He). exists s. split; [right; exact Hs'|exact He].
        -- intros j Hj. rewrite (HS j ltac:(lia)). split.
           ++ intros (s & [<-|Hs'] & He); [lia|]. exists s. auto.
           ++ intros (s & Hs' & He). exists s. split; [right; exact Hs'|exact He].
        -- intros s r -> Hlt. specialize (Hf s (or_introl eq_refl)). lia.
    + assert (Hne : forall s, In s l -> rend s <> i + 1).
      { intros s Hs He. rewrite (proj2 (HE i ltac:(lia))) in Ei; [discriminate|]. exists s. auto. }
      apply IH.
      * exact Hso.
      * intros s Hs. specialize (Hwf s Hs). specialize (Hne s Hs). lia.
      * intros j Hj. apply HE. lia.
      * intros j Hj. apply HS. lia.
      * intros s r -> Hlt. destruct (S i) eqn:Si.
        -- destruct (proj1 (HS i ltac:(lia)) Si) as (h & Hs' & Hst).
           destruct Hs' as [->|Hs']; [auto|]. inversion Hso as [|? ? Hso' Hf]; subst.
           rewrite Forall_forall in Hf. specialize (Hf h Hs'). specialize (Hwf s (or_introl eq_refl)). lia.
        -- apply (Hcur s r eq_refl). assert (rstart s <> i); [|lia]. intros He.
           rewrite (proj2 (HS i ltac:(lia))) in Si; [discriminate|]. exists s. split; [left; reflexivity|exact He].
Qed.

(** ** C26 *)
Lemma SS_nth {A} (R : A -> A -> Prop) l : StronglySorted R l ->
  forall i j a b, i < j -> nth_error l i = Some a -> nth_error l j = Some b -> R a b.
Proof.
  induction 1 as [|x l Hs IH Hf]; intros i j a b Hij Ha Hb; [destruct i; discriminate|].
  destruct j as [|j]; [lia|]. cbn [nth_error] in Hb. destruct i as [|i].
  - injection Ha as <-. rewrite Forall_forall in Hf. apply Hf. eapply nth_error_In; exact Hb.
  - eapply (IH i j); [lia|exact Ha|exact Hb].
Qed.
Lemma SS_of_nth {A} (R : A -> A -> Prop) l :
  (forall i j a b, i < j -> nth_error l i = Some a -> nth_error l j = Some b -> R a b) -> StronglySorted R l.
Proof.
  induction l as [|x l IH]; intros H; [constructor|]. constructor.
  - apply IH. intros i j a b Hij Ha Hb. apply (H (S i) (S j)); [lia|exact Ha|exact Hb].
  - apply Forall_forall. intros y Hy. apply In_nth_error in Hy. destruct Hy as [j Hj].
    apply (H 0 (S j)); [lia|reflexivity|exact Hj].
Qed.
Lemma SS_ordered_disjoint l : StronglySorted (fun a b => rend a <= rstart b) l ->
  (forall s, In s l -> rstart s < rend s) -> ordered_disjoint l.
Proof.
  intros Hs Hw i j a b Hij Ha Hb. pose proof (SS_nth _ _ Hs i j a b Hij Ha Hb) as H. cbv beta in H.
  pose proof (Hw a (nth_error_In _ _ Ha)). split; [lia|].
  intros (k & H1 & H2). unfold in_range in *. lia.
Qed.
Lemma ordered_disjoint_SS l : ordered_disjoint l -> (forall s, In s l -> rstart s < rend s) ->
  StronglySorted (fun a b => rend a <= rstart b) l.
Proof.
  intros Ho Hw. apply SS_of_nth. intros i j a b Hij Ha Hb. destruct (Ho i j a b Hij Ha Hb) as [H1 H2].
  pose proof (Hw a (nth_error_In _ _ Ha)). pose proof (Hw b (nth_error_In _ _ Hb)).
  destruct (Nat.le_gt_cases (rend a) (rstart b)); [assumption|]. exfalso. apply H2.
  exists (rstart b). unfold in_range. lia.
Qed.

Lemma sepb_spec sc t t' : in_alphabet sc t' -> t' <> $"O" -> (sepb sc t t' = true <-> separates sc t t').
Proof.
  intros Ha Ho. destruct sc; cbn [sepb separates].
  - split; [discriminate|contradiction].
  - rewrite <- bio_tag; [|exact Ha|apply is_outside_false; exact Ho]. apply starts_with_spec.
  - rewrite !orb_true_iff, !starts_with_spec. tauto.
Qed.

Definition decoded_segs (sc : TaggingScheme) (tags : list str) : list range :=
  segs_loop (sb sc tags) (eb sc tags) 0 0 (length tags).

Lemma decoded_segmentation sc tags : Forall (in_alphabet sc) tags -> segmentation sc tags (decoded_segs sc tags).
Proof.
  intros Hal. unfold decoded_segs.
  destruct (segs_loop_spec (tb tags) (sb sc tags) (eb sc tags) (length tags)
              (eb_tb sc tags) (tb_eb sc tags) (tb_last tags) (fun i => sb_open sc tags i Hal)
              (length tags) 0 0) as (H1 & H2 & H3); [lia|lia|discriminate|].
  cbn [openb] in H1, H2. set (segs := segs_loop _ _ _ _ _) in *.
  assert (Hw : forall s, In s segs -> wf_range (length tags) s).
  { intros s Hs. pose proof (segs_loop_wf _ _ _ _ _ (le_n 0) s Hs). unfold wf_range. lia. }
  split; [exact Hw|]. split; [|split].
  - apply SS_ordered_disjoint; [exact H3|]. intros s Hs. apply (Hw s Hs).
  - intros i. rewrite <- tb_spec. split.
    + intros Ti. apply H2; [|exact Ti]. split; [lia|].
      destruct (Nat.lt_ge_cases i (length tags)); [assumption|]. rewrite tb_last in Ti by assumption. discriminate.
    + intros (s & Hs & Hi). apply (proj2 (H1 s Hs) i Hi).
  - intros i t t' Et Et' Ti Ti'.
    assert (Ho' : t' <> $"O"). { destruct Ti' as (u & Hu & Hne). congruence. }
    assert (Hsep : eb sc tags i = true <-> separates sc t t').
    { rewrite <- sepb_spec; [|rewrite Forall_forall in Hal; apply Hal; eapply nth_error_In; exact Et'|exact Ho'].
      unfold eb. rewrite Et, Et'. apply tb_spec in Ti. unfold tb in Ti. rewrite Et in Ti.
      apply negb_true_iff in Ti. rewrite Ti. rewrite (proj2 (is_outside_false t') Ho'). reflexivity. }
    rewrite <- Hsep. split.
    + intros (s & Hs & Hi & Hi') He. apply (proj2 (H1 s Hs) i Hi) in He. unfold in_range in *. lia.
    + intros He. apply tb_spec in Ti. apply tb_spec in Ti'.
      assert (Hi : i + 1 < length tags) by (apply nth_error_Some; congruence).
      destruct (H2 i ltac:(lia) Ti) as (s & Hs & Hi1). exists s. split; [exact Hs|]. split; [exact Hi1|].
      assert (i + 1 <> rend s). { intros Hend. apply He. apply (proj2 (H1 s Hs) i Hi1). exact Hend. }
      unfold in_range in *. lia.
Qed.

Lemma tags_partition sc toks tags :
  length tags <= length toks -> Forall (in_alphabet sc) tags ->
  exists segs slots, tags_to_slot_ranges toks tags sc = Ok slots /\
    segmentation sc tags segs /\ Forall2 (slot_of_segment toks tags) segs slots.
Proof.
  intros Hl Ha. destruct (decode_segs toks tags sc Hl) as (slots & E & HF).
  exists (decoded_segs sc tags), slots. split; [exact E|]. split; [|exact HF]. apply decoded_segmentation. exact Ha.
Qed.

(** Any tags, in any scheme: groups are non-empty and inside the sentence. *)
Lemma tags_inside sc toks tags :
  length tags <= length toks ->
  exists segs slots, tags_to_slot_ranges toks tags sc = Ok slots /\
    (forall s, In s segs -> wf_range (length tags) s) /\ Forall2 (slot_of_segment toks tags) segs slots.
Proof.
  intros Hl. destruct (decode_segs toks tags sc Hl) as (slots & E & HF).
  exists (decoded_segs sc tags), slots. split; [exact E|]. split; [|exact HF].
  intros s Hs. pose proof (segs_loop_wf _ _ _ _ _ (le_n 0) s Hs). unfold wf_range. lia.
Qed.

(** ** C27 *)
Lemma prefix_cases sc i a len p : 0 < len -> a <= i < a + len ->
  get_scheme_prefix i (seq a len) sc = Ok p ->
  p = match sc with
      | IO => INSIDE_PREFIX
      | BIO => if i =? a then BEGINNING_PREFIX else INSIDE_PREFIX
      | BILOU => if len =? 1 then UNIT_PREFIX else if i =? a then BEGINNING_PREFIX
                 else if i + 1 =? a + len then LAST_PREFIX else INSIDE_PREFIX
      end.
Proof.
  intros Hl Hi. assert (H0 : index (seq a len) 0 = Ok a).
  { unfold index. destruct len; [lia|]. reflexivity. }
  assert (H1 : index (seq a len) (len - 1) = Ok (a + len - 1)).
  { unfold index. rewrite (nth_error_nth' _ 0) by (rewrite seq_length; lia).
    rewrite seq_nth by lia. f_equal. lia. }
  destruct sc; cbn [get_scheme_prefix].
  - congruence.
  - rewrite H0. cbn [bind]. congruence.
  - rewrite seq_length. destruct (len =? 1) eqn:El; [congruence|]. rewrite H0. cbn [bind].
    destruct (i =? a); [congruence|]. rewrite H1. cbn [bind].
    replace (i =? a + len - 1) with (i + 1 =? a + len); [congruence|].
    destruct (Nat.eqb_spec (i + 1) (a + len)), (Nat.eqb_spec i (a + len - 1)); try reflexivity; lia.
Qed.

Section Round.
  Variables (sc : TaggingScheme) (slots : list (range * str)) (tags : list str).
  Let n := length tags.
  Hypothesis Hok : slots_ok n slots.
  Hypothesis Henc : encodes sc n slots tags.
  Hypothesis Hadj : sc = IO -> not_adjacent slots.

  Definition pfx (s : range) (i : nat) : str :=
    match sc with
    | IO => INSIDE_PREFIX
    | BIO => if i =? rstart s then BEGINNING_PREFIX else INSIDE_PREFIX
    | BILOU => if rend s - rstart s =? 1 then UNIT_PREFIX else if i =? rstart s then BEGINNING_PREFIX
               else if i + 1 =? rend s then LAST_PREFIX else INSIDE_PREFIX
    end.
  Lemma tag_in s name i : In (s, name) slots -> in_range i s ->
    nth_error tags i = Some (pfx s i ++ name).
  Proof.
    intros Hs Hi. destruct Hok as [Hw _]. pose proof (Hw s (in_map fst _ _ Hs)) as [W1 W2].
    destruct Henc as [_ He]. destruct (He i) as [H1 _]; [unfold in_range in Hi; lia|].
    destruct (H1 s name Hs Hi) as (p & Hp & Hn). rewrite Hn. f_equal. f_equal.
    apply prefix_cases in Hp; [|lia|unfold in_range in Hi; lia].
    unfold pfx. rewrite Hp. destruct sc; try reflexivity.
    replace (rstart s + (rend s - rstart s)) with (rend s) by lia. reflexivity.
  Qed.
  Lemma pfx_tagged s i name : is_outside (pfx s i ++ name) = false.
  Proof.
    apply is_outside_false. unfold pfx.
    destruct sc; repeat match goal with |- context [if ?b then _ else _] => destruct b end; discriminate.
  Qed.
  Lemma covered_dec i : {s | In s slots /\ in_range i (fst s)} + {forall s, In s slots -> ~ in_range i (fst s)}.
  Proof.
    clear. induction slots as [|s l IH]; [right; intros s []|].
    destruct IH as [(s' & H1 & H2)|H]; [left; exists s'; split; [right; exact H1|exact H2]|].
    destruct (le_dec (rstart (fst s)) i); [destruct (lt_dec i (rend (fst s)))|].
    - left. exists s. split; [left; reflexivity|]. unfold in_range. lia.
    - right. intros s' [<-|Hs']; [unfold in_range; lia|]. apply H; exact Hs'.
    - right. intros s' [<-|Hs']; [unfold in_range; lia|]. apply H; exact Hs'.
  Qed.
  Lemma tb_covered i : tb tags i = true <-> exists s, In s (map fst slots) /\ in_range i s.
  Proof.
    destruct (covered_dec i) as [([s name] & Hs & Hi)|Hno]; cbn [fst] in *.
    - unfold tb. rewrite (tag_in s name i Hs Hi), pfx_tagged. split; [|reflexivity].
      intros _. exists s. split; [apply (in_map fst _ _ Hs)|exact Hi].
    - assert (Hno' : forall s, In s (map fst slots) -> ~ in_range i s).
      { intros s Hs. apply in_map_iff in Hs. destruct Hs as (x & <- & Hx). apply Hno. exact Hx. }
      split; [|intros (s & Hs & Hi); exfalso; exact (Hno' s Hs Hi)].
      intros Ht. exfalso. destruct (Nat.lt_ge_cases i n) as [Hl|Hl].
      + destruct Henc as [_ He]. destruct (He i Hl) as [_ H2]. specialize (H2 Hno'). unfold tb in Ht. rewrite H2 in Ht. discriminate.
      + rewrite tb_last in Ht by exact Hl. discriminate.
  Qed.
  Lemma same_slot s name s' name' i : In (s, name) slots -> In (s', name') slots ->
    in_range i s -> in_range i s' -> (s, name) = (s', name').
  Proof.
    intros H1 H2 I1 I2. apply In_nth_error in H1. apply In_nth_error in H2.
    destruct H1 as [k1 H1], H2 as [k2 H2]. destruct Hok as [_ Ho].
    destruct (Nat.lt_trichotomy k1 k2) as [Hlt|[->|Hlt]]; [|congruence|]; exfalso.
    - destruct (Ho k1 k2 s s' Hlt) as [_ Hd]; [rewrite nth_error_map, H1; reflexivity|rewrite nth_error_map, H2; reflexivity|].
      apply Hd. exists i. auto.
    - destruct (Ho k2 k1 s' s Hlt) as [_ Hd]; [rewrite nth_error_map, H2; reflexivity|rewrite nth_error_map, H1; reflexivity|].
      apply Hd. exists i. auto.
  Qed.
  (** The next token is in another slot: it is the first token of that slot. *)
  Lemma next_first s name s' name' i : In (s, name) slots -> In (s', name') slots ->
    in_range i s -> in_range (i + 1) s' -> i + 1 = rend s -> rstart s' = i + 1.
  Proof.
    intros H1 H2 I1 I2 He. destruct (Nat.eq_dec (rstart s') (i + 1)); [assumption|].
    assert (I3 : in_range i s') by (unfold in_range in *; lia).
    pose proof (same_slot _ _ _ _ i H1 H2 I1 I3) as Heq. injection Heq as -> _. unfold in_range in *. lia.
  Qed.
  Lemma eb_end s name i : In (s, name) slots -> in_range i s ->
    (eb sc tags i = true <-> i + 1 = rend s).
  Proof.
    intros Hs Hi. unfold eb. rewrite (tag_in s name i Hs Hi), pfx_tagged.
    pose proof (proj1 Hok s (in_map fst _ _ Hs)) as [W1 W2].
    destruct (covered_dec (i + 1)) as [([s' name'] & Hs' & Hi')|Hno]; cbn [fst] in *.
    - rewrite (tag_in s' name' (i + 1) Hs' Hi'), pfx_tagged. cbn [orb].
      destruct (Nat.eq_dec (i + 1) (rend s)) as [He|He].
      + split; [intros _; exact He|intros _].
        pose proof (next_first _ _ _ _ _ Hs Hs' Hi Hi' He) as Hf.
        destruct sc eqn:Esc; cbn [sepb].
        * exfalso. specialize (Hadj eq_refl). pose proof Hs as K1. pose proof Hs' as K2.
          apply In_nth_error in K1. apply In_nth_error in K2. destruct K1 as [k1 K1], K2 as [k2 K2].
          destruct (Nat.lt_trichotomy k1 k2) as [Hlt|[->|Hlt]].
          -- pose proof (Hadj k1 k2 _ _ Hlt K1 K2). cbn [fst] in *. lia.
          -- rewrite K1 in K2. injection K2 as -> ->. unfold in_range in *. lia.
          -- pose proof (Hadj k2 k1 _ _ Hlt K2 K1). cbn [fst] in *.
             pose proof (proj1 Hok s' (in_map fst _ _ Hs')) as [W1' W2']. lia.
        * unfold pfx. rewrite Esc. rewrite (proj2 (Nat.eqb_eq (i + 1) (rstart s'))) by lia. reflexivity.
        * unfold pfx. rewrite Esc. destruct (rend s' - rstart s' =? 1); [rewrite !orb_true_r; reflexivity|].
          rewrite (proj2 (Nat.eqb_eq (i + 1) (rstart s'))) by lia. rewrite orb_true_r. reflexivity.
      + split; [|intros; congruence].
        assert (I3 : in_range (i + 1) s) by (unfold in_range in *; lia).
        pose proof (same_slot _ _ _ _ (i + 1) Hs Hs' I3 Hi') as Heq. injection Heq as <- <-.
        intros Hsep. exfalso. unfold in_range in *. unfold pfx in Hsep. destruct sc eqn:Esc; cbn [sepb] in Hsep.
        * discriminate.
        * rewrite (proj2 (Nat.eqb_neq (i + 1) (rstart s))) in Hsep by lia. discriminate.
        * rewrite (proj2 (Nat.eqb_neq (rend s - rstart s) 1)) in Hsep by lia.
          rewrite (proj2 (Nat.eqb_neq (i + 1) (rstart s))) in Hsep by lia.
          rewrite (proj2 (Nat.eqb_neq (i + 1) (rend s))) in Hsep by lia.
          destruct (i =? rstart s), (i + 1 + 1 =? rend s); discriminate.
    - assert (He : i + 1 = rend s).
      { destruct (Nat.eq_dec (i + 1) (rend s)); [assumption|]. exfalso. apply (Hno (s, name) Hs).
        unfold in_range in *; cbn [fst]; lia. }
      split; [intros _; exact He|intros _].
      destruct (Nat.lt_ge_cases (i + 1) n) as [Hl|Hl].
      + destruct Henc as [_ H]. destruct (H (i + 1) Hl) as [_ H2].
        rewrite H2; [reflexivity|]. intros x Hx. apply in_map_iff in Hx. destruct Hx as (y & <- & Hy). apply Hno. exact Hy.
      + rewrite (proj2 (nth_error_None tags (i + 1))) by exact Hl. reflexivity.
  Qed.
  Lemma round_alphabet : Forall (in_alphabet sc) tags.
  Proof.
    apply Forall_forall. intros t Ht. apply In_nth_error in Ht. destruct Ht as [i Hi].
    assert (Hl : i < n) by (apply nth_error_Some; congruence).
    destruct (covered_dec i) as [([s name] & Hs & Hr)|Hno]; cbn [fst] in *.
    - rewrite (tag_in s name i Hs Hr) in Hi. injection Hi as <-. unfold pfx, in_alphabet.
      destruct sc; try exact I. right. destruct (i =? rstart s); [left|right]; eexists; reflexivity.
    - destruct Henc as [_ H]. destruct (H i Hl) as [_ H2]. rewrite H2 in Hi.
      + injection Hi as <-. unfold in_alphabet. destruct sc; try exact I. left; reflexivity.
      + intros x Hx. apply in_map_iff in Hx. destruct Hx as (y & <- & Hy). apply Hno. exact Hy.
  Qed.

  Lemma round_segs : decoded_segs sc tags = map fst slots.
  Proof.
    assert (Hw : forall s, In s (map fst slots) -> rstart s < rend s).
    { intros s Hs. apply (proj1 Hok s Hs). }
    assert (Hend : forall j, eb sc tags j = true <-> exists s, In s (map fst slots) /\ rend s = j + 1).
    { intros j. split.
      - intros He. pose proof (eb_tb _ _ _ He) as Ht. apply tb_covered in Ht. destruct Ht as (s & Hs & Hj).
        exists s. split; [exact Hs|]. apply in_map_iff in Hs. destruct Hs as ([s' name] & <- & Hs). cbn [fst] in *.
        apply (eb_end s' name j Hs Hj) in He. lia.
      - intros (s & Hs & He). pose proof (Hw s Hs). apply in_map_iff in Hs. destruct Hs as ([s' name] & <- & Hs).
        cbn [fst] in *. apply (eb_end s' name j Hs); unfold in_range; lia. }
    unfold decoded_segs. apply segs_loop_unique.
    - apply ordered_disjoint_SS; [apply Hok|exact Hw].
    - intros s Hs. pose proof (proj1 Hok s Hs) as [W1 W2]. fold n. lia.
    - intros j _. apply Hend.
    - intros j [_ Hj]. rewrite (sb_open sc tags j round_alphabet Hj). rewrite andb_true_iff, negb_true_iff.
      split.
      + intros [Ht Ho]. apply tb_covered in Ht. destruct Ht as (s & Hs & Hi). exists s. split; [exact Hs|].
        destruct (Nat.eq_dec (rstart s) j); [assumption|]. exfalso.
        destruct j as [|j]; [unfold in_range in Hi; lia|]. cbn [openb] in Ho.
        assert (I2 : in_range j s) by (unfold in_range in *; lia).
        rewrite (proj2 (tb_covered j)) in Ho by (exists s; auto). cbn [andb] in Ho. apply negb_false_iff in Ho.
        apply in_map_iff in Hs. destruct Hs as ([s' name] & <- & Hs). cbn [fst] in *.
        apply (eb_end s' name j Hs I2) in Ho. unfold in_range in *. lia.
      + intros (s & Hs & He). pose proof (Hw s Hs) as Hl. split; [apply tb_covered; exists s; split; [exact Hs|unfold in_range; lia]|].
        destruct j as [|j]; [reflexivity|]. cbn [openb].
        destruct (tb tags j) eqn:Tj; [|reflexivity]. cbn [andb]. apply negb_false_iff.
        apply tb_covered in Tj. destruct Tj as (s' & Hs' & Hi'). apply Hend.
        exists s'. split; [exact Hs'|].
        apply in_map_iff in Hs. destruct Hs as ([s1 n1] & <- & Hs). apply in_map_iff in Hs'. destruct Hs' as ([s2 n2] & <- & Hs').
        cbn [fst] in *. destruct (Nat.eq_dec (rend s2) (j + 1)); [assumption|]. exfalso.
        assert (I2 : in_range (S j) s2) by (unfold in_range in *; lia).
        assert (I1 : in_range (S j) s1) by (unfold in_range in *; lia).
        pose proof (same_slot _ _ _ _ (S j) Hs Hs' I1 I2) as Heq. injection Heq as -> ->. unfold in_range in *. lia.
    - intros s r Hs Hlt. lia.
  Qed.
End Round.

Lemma Forall2_map_In {A B C} (P : B -> C -> Prop) (Q : A -> C -> Prop) (f : A -> B) l d :
  Forall2 P (map f l) d -> (forall x y, In x l -> P (f x) y -> Q x y) -> Forall2 Q l d.
Proof.
  revert d; induction l as [|x l IH]; intros d HF H; inversion HF; subst; constructor.
  - apply H; [left; reflexivity|assumption].
  - apply IH; [assumption|]. intros; apply H; [right|]; assumption.
Qed.

Lemma round_trip sc toks slots tags :
  length tags <= length toks -> slots_ok (length tags) slots -> encodes sc (length tags) slots tags ->
  (sc = IO -> not_adjacent slots) ->
  exists decoded, tags_to_slot_ranges toks tags sc = Ok decoded /\
    Forall2 (same_slot_as toks) slots decoded.
Proof.
  intros Hl Hok He Ha. destruct (decode_segs toks tags sc Hl) as (d & E & HF).
  exists d. split; [exact E|]. fold (decoded_segs sc tags) in HF.
  rewrite (round_segs sc slots tags Hok He Ha) in HF.
  eapply Forall2_map_In; [exact HF|]. intros [s name] r Hin [Hsp (t & Ht & Hn)]. cbn [fst snd] in *.
  split; [|exact Hsp]. pose proof (proj1 Hok s (in_map fst _ _ Hin)) as [W1 W2].
  rewrite (tag_in sc slots tags Hok He Ha s name (rend s - 1) Hin) in Ht by (unfold in_range; lia).
  injection Ht as <-. rewrite Hn. unfold pfx. cbn [snd].
  destruct sc; repeat match goal with |- context [if ?b then _ else _] => destruct b end; reflexivity.
Qed.

(** ** C28 *)
Lemma boundary_firstn s i : i <= length s -> boundary s (byte_len (firstn i s)) = Some i.
Proof.
  revert i; induction s as [|c s IH]; intros i Hi; destruct i as [|i]; simpl in Hi; try lia; try reflexivity.
  cbn [firstn byte_len boundary]. pose proof (utf8_len_pos c).
  destruct (Nat.eqb_spec (utf8_len c + byte_len (firstn i s)) 0); [lia|].
  destruct (Nat.ltb_spec (utf8_len c + byte_len (firstn i s)) (utf8_len c)); [lia|].
  replace (utf8_len c + byte_len (firstn i s) - utf8_len c) with (byte_len (firstn i s)) by lia.
  rewrite IH by lia. reflexivity.
Qed.
Lemma byte_slice_firstn s i j : i <= j -> j <= length s ->
  byte_slice s (byte_len (firstn i s), byte_len (firstn j s)) = Ok (substring s (i, j)).
Proof.
  intros H1 H2. unfold byte_slice; cbn [rstart rend fst snd].
  rewrite !boundary_firstn by lia. rewrite (proj2 (Nat.leb_le i j)) by exact H1. reflexivity.
Qed.

Lemma spans_ok text toks seg bytes chars n :
  tokens_ok text toks -> n <= length toks -> wf_range n seg -> spans toks seg bytes chars ->
  wf_range (length text) chars /\
  bytes = (byte_len (firstn (rstart chars) text), byte_len (firstn (rend chars) text)).
Proof.
  intros [Hk Ho] Hn [W1 W2] (a & b & Ha & Hb & -> & ->).
  destruct (Hk a (nth_error_In _ _ Ha)) as ([A1 A2] & A3 & A4).
  destruct (Hk b (nth_error_In _ _ Hb)) as ([B1 B2] & B3 & B4).
  rewrite A4, B4. unfold wf_range, rstart, rend in *; cbn [fst snd] in *. split; [|reflexivity].
  destruct (Nat.eq_dec (fst seg) (snd seg - 1)) as [He|Hne].
  - rewrite He in Ha. rewrite Ha in Hb. injection Hb as <-. lia.
  - pose proof (Ho (fst seg) (snd seg - 1) a b ltac:(lia) Ha Hb). lia.
Qed.

(** What is done for one decoded slot. *)
Definition to_slot (text : str) (mapping : list (str * str)) (s : SlotRange) : outcome InternalSlot :=
  let* value := byte_slice text (sr_range s) in
  let* entity := ok_or EOther (sget (sr_name s) mapping) in
  Ok (mkIS value (sr_char_range s) entity (sr_name s)).

Lemma to_slot_spec text toks tags mapping seg r n :
  tokens_ok text toks -> n <= length toks -> wf_range n seg -> slot_of_segment toks tags seg r ->
  (to_slot text mapping r = Err EOther /\ sget (sr_name r) mapping = None) \/
  (exists s, to_slot text mapping r = Ok s /\ text_slot text toks tags mapping seg s /\ sget (sr_name r) mapping <> None).
Proof.
  intros Ht Hn Hw [Hsp (t & Htag & Hname)]. destruct (spans_ok _ _ _ _ _ _ Ht Hn Hw Hsp) as [[C1 C2] Hb].
  unfold to_slot. rewrite Hb, byte_slice_firstn by (lia || exact C2). cbn [bind].
  destruct (sget (sr_name r) mapping) as [e|] eqn:Ee; cbn [ok_or bind]; [right|left; auto].
  eexists; split; [reflexivity|]. unfold text_slot; cbn [is_range is_value is_slot_name is_entity].
  split; [|discriminate]. split; [eexists; exact Hsp|]. split; [split; assumption|]. split; [|split; [|exact Ee]].
  - destruct (sr_char_range r); reflexivity.
  - exists t. auto.
Qed.

Lemma mapM_slots text toks tags mapping n segs slots :
  tokens_ok text toks -> n <= length toks -> (forall s, In s segs -> wf_range n s) ->
  Forall2 (slot_of_segment toks tags) segs slots ->
  (mapM (to_slot text mapping) slots = Err EOther /\ exists r, In r slots /\ sget (sr_name r) mapping = None) \/
  (exists res, mapM (to_slot text mapping) slots = Ok res /\
     Forall2 (text_slot text toks tags mapping) segs res /\ forall r, In r slots -> sget (sr_name r) mapping <> None).
Proof.
  intros Ht Hn. induction 2 as [|seg r segs slots Hr HF IH].
  - right. exists []. split; [reflexivity|]. split; [constructor|intros r []].
  - cbn [mapM].
    destruct (to_slot_spec text toks tags mapping seg r n Ht Hn (H seg (or_introl eq_refl)) Hr)
      as [[E1 E2]|(s & E1 & E2 & E3)]; rewrite E1; cbn [bind].
    + left. split; [reflexivity|]. exists r. split; [left; reflexivity|exact E2].
    + destruct IH as [[I1 (r' & I2 & I3)]|(res & I1 & I2 & I3)].
      { intros s' Hs'. apply H. right; exact Hs'. }
      * left. rewrite I1. split; [reflexivity|]. exists r'. split; [right; exact I2|exact I3].
      * right. rewrite I1. cbn [bind]. eexists; split; [reflexivity|]. split; [constructor; assumption|].
        intros r' [<-|Hr']; [exact E3|apply I3; exact Hr'].
Qed.

Lemma tags_to_slots_eq text toks tags sc mapping :
  tags_to_slots text toks tags sc mapping =
  let* ranges := tags_to_slot_ranges toks tags sc in mapM (to_slot text mapping) ranges.
Proof. reflexivity. Qed.

Lemma slots_slices text toks tags sc mapping slots :
  tokens_ok text toks -> length tags <= length toks ->
  tags_to_slots text toks tags sc mapping = Ok slots ->
  exists segs, (forall s, In s segs -> wf_range (length tags) s) /\
    (Forall (in_alphabet sc) tags -> segmentation sc tags segs) /\
    Forall2 (text_slot text toks tags mapping) segs slots.
Proof.
  intros Ht Hl H. rewrite tags_to_slots_eq in H.
  destruct (decode_segs toks tags sc Hl) as (ranges & E & HF). rewrite E in H. cbn [bind] in H.
  assert (Hw : forall s, In s (decoded_segs sc tags) -> wf_range (length tags) s).
  { intros s Hs. pose proof (segs_loop_wf _ _ _ _ _ (le_n 0) s Hs). unfold wf_range. lia. }
  exists (decoded_segs sc tags). split; [exact Hw|]. split; [apply decoded_segmentation|].
  destruct (mapM_slots text toks tags mapping (length tags) _ _ Ht Hl Hw HF) as [[E1 _]|(res & E1 & E2 & _)]; congruence.
Qed.

Lemma eb_ends sc tags i t : Forall (in_alphabet sc) tags ->
  (ends_slot sc tags i t <-> nth_error tags i = Some t /\ eb sc tags i = true).
Proof.
  intros Ha. unfold ends_slot, eb. destruct (nth_error tags i) as [u|]; [|split; [intros [H _]|intros [H _]]; discriminate].
  split.
  - intros ([= ->] & Ho & Hn). split; [reflexivity|]. rewrite (proj2 (is_outside_false t) Ho).
    destruct (nth_error tags (i + 1)) as [t'|] eqn:E; [|reflexivity].
    destruct (is_outside t') eqn:Eo; [reflexivity|]. cbn [orb].
    apply sepb_spec; [rewrite Forall_forall in Ha; apply Ha; eapply nth_error_In; exact E|apply is_outside_false; exact Eo|].
    destruct (Hn t' eq_refl) as [->|Hs]; [discriminate|exact Hs].
  - intros ([= ->] & He). split; [reflexivity|]. destruct (is_outside t) eqn:Eo; [discriminate|].
    split; [apply is_outside_false; exact Eo|]. intros t' Et'. rewrite Et' in He.
    apply orb_true_iff in He. destruct He as [He|He]; [left; apply is_outside_spec; exact He|].
    destruct (str_eq_dec t' $"O") as [->|Hne]; [left; reflexivity|right].
    apply sepb_spec in He; [exact He| |exact Hne].
    rewrite Forall_forall in Ha; apply Ha; eapply nth_error_In; exact Et'.
Qed.

Lemma Forall2_In_l {A B} (P : A -> B -> Prop) l l' x : Forall2 P l l' -> In x l -> exists y, In y l' /\ P x y.
Proof.
  induction 1 as [|a b l l' Hab HF IH]; intros Hin; [contradiction|]. destruct Hin as [<-|Hin].
  - exists b. split; [left; reflexivity|exact Hab].
  - destruct (IH Hin) as (y & H1 & H2). exists y. split; [right; exact H1|exact H2].
Qed.
Lemma Forall2_In_r {A B} (P : A -> B -> Prop) l l' y : Forall2 P l l' -> In y l' -> exists x, In x l /\ P x y.
Proof.
  induction 1 as [|a b l l' Hab HF IH]; intros Hin; [contradiction|]. destruct Hin as [<-|Hin].
  - exists a. split; [left; reflexivity|exact Hab].
  - destruct (IH Hin) as (x & H1 & H2). exists x. split; [right; exact H1|exact H2].
Qed.

Lemma slots_undeclared text toks tags sc mapping :
  tokens_ok text toks -> length tags <= length toks -> Forall (in_alphabet sc) tags ->
  tags_to_slots text toks tags sc mapping <> Panic /\
  ((exists e, tags_to_slots text toks tags sc mapping = Err e) <->
   exists i t, ends_slot sc tags i t /\ ~ In (skipn 2 t) (map fst mapping)).
Proof.
  intros Ht Hl Ha. rewrite tags_to_slots_eq.
  destruct (decode_segs toks tags sc Hl) as (ranges & E & HF). rewrite E. cbn [bind].
  assert (Hw : forall s, In s (decoded_segs sc tags) -> wf_range (length tags) s).
  { intros s Hs. pose proof (segs_loop_wf _ _ _ _ _ (le_n 0) s Hs). unfold wf_range. lia. }
  destruct (mapM_slots text toks tags mapping (length tags) _ _ Ht Hl Hw HF)
    as [[E1 (r & R1 & R2)]|(res & E1 & _ & R)]; rewrite E1; (split; [discriminate|]).
  - split; [intros _|eauto].
    destruct (Forall2_In_r _ _ _ _ HF R1) as (seg & S1 & _ & t & S2 & S3).
    pose proof (segs_loop_wf _ _ _ _ _ (le_n 0) seg S1) as (_ & _ & _ & S4).
    exists (rend seg - 1), t. split; [apply eb_ends; [exact Ha|auto]|].
    rewrite <- S3. apply sget_None. exact R2.
  - split; [intros [e He]; discriminate|].
    intros (i & t & Hend & Hno). exfalso. apply eb_ends in Hend; [|exact Ha]. destruct Hend as [H1 H2].
    destruct (segs_loop_ends (sb sc tags) (eb sc tags) (length tags) 0 0 i) as (seg & S1 & S2); [|exact H2|].
    { split; [lia|]. cbn. apply nth_error_Some. congruence. }
    destruct (Forall2_In_l _ _ _ _ HF S1) as (r & R1 & _ & t' & R2 & R3).
    apply (R r R1). apply sget_None. rewrite R3. replace (rend seg - 1) with i in R2 by lia.
    rewrite H1 in R2. injection R2 as <-. exact Hno.
Qed.
Lemma slots_no_panic text toks tags sc mapping :
  tokens_ok text toks -> length tags <= length toks -> tags_to_slots text toks tags sc mapping <> Panic.
Proof.
  intros Ht Hl. rewrite tags_to_slots_eq.
  destruct (decode_segs toks tags sc Hl) as (ranges & E & HF). rewrite E. cbn [bind].
  assert (Hw : forall s, In s (decoded_segs sc tags) -> wf_range (length tags) s).
  { intros s Hs. pose proof (segs_loop_wf _ _ _ _ _ (le_n 0) s Hs). unfold wf_range. lia. }
  destruct (mapM_slots text toks tags mapping (length tags) _ _ Ht Hl Hw HF)
    as [[E1 _]|(res & E1 & _ & R)]; rewrite E1; discriminate.
Qed.
