(** The conditions of the theorems about loaded engines hold for the trained engine that
    the repository ships, data/tests/models/nlu_engine_beverage. *)
From Coq Require Import String List NArith ZArith Bool Arith Lia Sorted Reals Lra.
From Flocq Require Import Core.Core IEEE754.BinarySingleNaN.
From Verif Require Import Base F32 M_Types M_Engine M_Det M_Lookup M_Feat M_Prob M_Crf M_Features M_Filler
  M_Cache M_Res M_Fs M_Json M_Load S_Base S_Utils S_Det S_Rules S_Match S_Feat S_Prob S_Crf S_Filler S_Load S_Answer S_Safe
  P_Base P_Engine P_Utils P_F32 P_Rules P_Match P_MatchDet P_Feat P_Load P_Names P_Demo P_Answer P_Norm
  Demo Demo_Rules Demo_Load Demo_Home Demo_Safe
  Tests_Base Tests_Features Tests_Classifier Tests_Det Tests_Files Tests_Beverage.
Import ListNotations.
Local Open Scope nat_scope.

(** ** The doubles meet the contracts *)

Lemma test_tok_ok s : forall pre cur,
  let ts := test_tok s (byte_len (pre ++ rev cur)) (length (pre ++ rev cur)) cur in
  (forall t, In t ts -> token_ok (pre ++ rev cur ++ s) t /\ length pre <= rstart (tk_char_range t)) /\
  StronglySorted (fun a b => rend (tk_char_range a) <= rstart (tk_char_range b)) ts.
Proof.
  induction s as [|ch s IH]; intros pre cur; cbv zeta.
  - destruct cur as [|c cur]; cbn [test_tok]; [split; [contradiction|constructor]|].
    set (cu := c :: cur). split; [|repeat constructor].
    intros t [<-|[]]. split; [apply demo_flush_ok; discriminate|].
    cbn [tk_char_range rstart fst]. rewrite app_length, rev_length. lia.
  - cbn [test_tok].
    (* the word being read, if any *)
    set (flush := match cur with
                  | [] => []
                  | _ :: _ => [mkTok (rev cur) (byte_len (pre ++ rev cur) - byte_len cur, byte_len (pre ++ rev cur))
                                     (length (pre ++ rev cur) - length cur, length (pre ++ rev cur))]
                  end).
    assert (Fl : forall t, In t flush -> token_ok (pre ++ rev cur ++ ch :: s) t /\ length pre <= rstart (tk_char_range t) /\
                   rend (tk_char_range t) <= length (pre ++ rev cur)).
    { intros t Ht. subst flush. destruct cur as [|c cur]; [contradiction|]. destruct Ht as [<-|[]].
      split; [apply demo_flush_ok; discriminate|]. cbn [tk_char_range rstart rend fst snd].
      rewrite app_length, rev_length. lia. }
    assert (Fs : StronglySorted (fun a b => rend (tk_char_range a) <= rstart (tk_char_range b)) flush).
    { subst flush. destruct cur; repeat constructor. }
    clearbody flush.
    destruct (IH (pre ++ rev cur ++ [ch]) []) as [IH1 IH2].
    simpl rev in IH1, IH2. rewrite app_nil_r in IH1, IH2.
    assert (B : byte_len (pre ++ rev cur ++ [ch]) = byte_len (pre ++ rev cur) + utf8_len ch).
    { rewrite !byte_len_app. simpl. lia. }
    assert (Ln : length (pre ++ rev cur ++ [ch]) = length (pre ++ rev cur) + 1).
    { rewrite !app_length. simpl. lia. }
    rewrite B, Ln in IH1, IH2.
    assert (E : (pre ++ rev cur ++ [ch]) ++ s = pre ++ rev cur ++ ch :: s).
    { rewrite <- !app_assoc. reflexivity. }
    rewrite app_nil_l, E in IH1.
    assert (P : length pre <= length (pre ++ rev cur)) by (rewrite app_length; lia).
    destruct (word_char ch); [|destruct (sign_char ch)].
    + destruct (IH pre (ch :: cur)) as [J1 J2]. simpl rev in J1, J2. rewrite B, Ln in J1, J2.
      rewrite <- !app_assoc in J1. split; [|exact J2]. intros t Ht. exact (J1 t Ht).
    + split.
      * intros t Ht. apply in_app_or in Ht as [Ht|[<-|Ht]].
        -- destruct (Fl t Ht) as (A & C & _). auto.
        -- split; [|cbn [tk_char_range rstart fst]; lia].
           assert (F := demo_flush_ok (pre ++ rev cur) [ch] s ltac:(discriminate)). simpl rev in F.
           rewrite <- !app_assoc in F. cbn [app] in F. rewrite B, Ln in F. cbn [byte_len length] in F.
           replace (byte_len (pre ++ rev cur) + utf8_len ch - (utf8_len ch + 0)) with (byte_len (pre ++ rev cur)) in F by lia.
           replace (length (pre ++ rev cur) + 1 - 1) with (length (pre ++ rev cur)) in F by lia. exact F.
        -- apply IH1 in Ht as [A C]. split; [exact A|lia].
      * apply SS_app. split; [exact Fs|]. split.
        -- constructor; [exact IH2|]. apply Forall_forall. intros t Ht. apply IH1 in Ht as [_ C].
           cbn [tk_char_range rend snd]. exact C.
        -- intros a b Ha [<-|Hb]; apply Fl in Ha as (_ & _ & Ha); cbn [tk_char_range rstart fst]; [exact Ha|].
           apply IH1 in Hb as [_ C]. lia.
    + split.
      * intros t Ht. apply in_app_or in Ht as [Ht|Ht].
        -- destruct (Fl t Ht) as (A & C & _). auto.
        -- apply IH1 in Ht as [A C]. split; [exact A|lia].
      * apply SS_app. split; [exact Fs|]. split; [exact IH2|].
        intros a b Ha Hb. apply Fl in Ha as (_ & _ & Ha). apply IH1 in Hb as [_ C]. lia.
Qed.

Lemma test_tokenize_ok s : tokens_ok s (test_tokenize s).
Proof.
  destruct (test_tok_ok s [] []) as [H1 H2]. split.
  - intros t Ht. apply H1. exact Ht.
  - apply (sorted_nth (fun a b => rend (tk_char_range a) <= rstart (tk_char_range b))). exact H2.
Qed.
Lemma test_tokenizer_ok : tokenizer_ok test_ext.
Proof. intros l s. exact (test_tokenize_ok s). Qed.

Lemma normalize_nonneg z e : (0 <= z)%Z -> fle f0 (binary_normalize 24 128 Hprec24 Hmax24 mode_NE z e false) = true.
Proof.
  intros H. assert (C := binary_normalize_correct 24 128 Hprec24 Hmax24 mode_NE z e false). cbv zeta in C.
  assert (P : (0 <= F2R (Float radix2 z e))%R) by (apply F2R_ge_0; exact H).
  set (v := binary_normalize _ _ _ _ _ _ _ _) in *. clearbody v.
  destruct (Rlt_bool (Rabs _) _).
  - destruct C as (_ & F & S).
    assert (N : Bsign v = false).
    { rewrite S. destruct (Rcompare_spec (F2R (Float radix2 z e)) 0); [lra|reflexivity|reflexivity]. }
    clear - F N. destruct v as [b|b| |b m e B]; cbn in F, N; try discriminate; subst; reflexivity.
  - rewrite Rlt_bool_false in C by exact P. clear - C. destruct v; cbn in C; try discriminate. injection C as ->. reflexivity.
Qed.

Lemma squares_nonneg n y : (0 < n) -> (0 <= Nat.iter n (fun y => fixed_mul y y) y)%Z.
Proof.
  intros H. destruct n as [|n]; [lia|]. cbn [Nat.iter nat_rect]. unfold fixed_mul. apply Z.shiftr_nonneg. apply Z.square_nonneg.
Qed.
Lemma test_exp_ok : exp_ok test_math.
Proof. intros v _. apply normalize_nonneg. apply squares_nonneg. lia. Qed.

(** A group that is found has its name in the pattern. *)
Definition group_names (ps : list piece) : list str :=
  flat_map (fun p => match p with POpen n => [n] | _ => [] end) ps.
Lemma run_pieces_names ps : forall s b open caps, run_pieces ps s b open = Some caps ->
  length caps <= length ps /\
  forall n r, In (Some n, r) caps -> In n (group_names ps) \/ exists a, open = Some (n, a).
Proof.
  induction ps as [|p ps IH]; intros s b open caps H.
  - injection H as <-. split; [simpl; lia|contradiction].
  - assert (W : forall s' b' , run_pieces ps s' b' open = Some caps ->
                  length caps <= length (p :: ps) /\
                  forall n r, In (Some n, r) caps -> In n (group_names (p :: ps)) \/ exists a, open = Some (n, a)).
    { intros s' b' H'. apply IH in H' as [A B]. split; [simpl; lia|]. intros n r Hn. destruct (B n r Hn) as [C|C]; [|auto].
      left. unfold group_names. cbn [flat_map]. apply in_or_app. auto. }
    destruct p; cbn [run_pieces] in H.
    + destruct (drop_spaces s b) as [r b']. exact (W _ _ H).
    + destruct s as [|c r]; [discriminate|]. destruct (c =? 32)%N; [|discriminate]. exact (W _ _ H).
    + destruct s as [|d r]; [discriminate|]. destruct (_ =? _)%N; [|discriminate]. exact (W _ _ H).
    + apply IH in H as [A B]. split; [simpl; lia|]. intros n r Hn. destruct (B n r Hn) as [C|[a C]].
      * left. right. exact C.
      * injection C as -> _. left. left. reflexivity.
    + destruct open as [[n a]|]; [|discriminate]. destruct (run_pieces ps s b None) as [cs|] eqn:E; [|discriminate].
      injection H as <-. apply IH in E as [A B]. split; [simpl; lia|]. intros m r [Hn|Hn].
      * injection Hn as -> _. eauto.
      * destruct (B m r Hn) as [C|[x C]]; [auto|discriminate].
    + destruct s; [|discriminate]. exact (W _ _ H).
Qed.

Lemma pieces_length n : forall s, length (pieces n s) <= n.
Proof.
  induction n as [|n IH]; intros s; [simpl; lia|].
  cbn [pieces].
  repeat match goal with
         | |- context [match ?l with [] => _ | _ :: _ => _ end] => destruct l
         | |- context [match ?c with N0 => _ | Npos _ => _ end] => destruct c
         | |- context [match ?c with xI _ => _ | xO _ => _ | xH => _ end] => destruct c
         | |- context [until_gt ?s] => destruct (until_gt s)
         end; cbn [length]; try lia; match goal with |- context [pieces n ?l] => specialize (IH l) end; lia.
Qed.

Lemma test_groups_fit : groups_fit small_compile.
Proof.
  intros p r s caps Hc Hr. unfold small_compile in Hc. destruct (length p <=? 1000) eqn:E; [|discriminate].
  apply Nat.leb_le in E. injection Hc as <-.
  destruct (run_pieces (pieces (length p) p) s 0 None) as [cs|] eqn:R; [|discriminate]. injection Hr as <-.
  apply run_pieces_names in R as [A _]. pose proof (pieces_length (length p) p). cbn [length]. lia.
Qed.

Lemma best_in l : l <> [] -> In (best l) l.
Proof.
  destruct l as [|a r]; [congruence|]. intros _. cbn [best].
  assert (G : forall l a, In (fold_left (fun a b : Z * list str => if (fst a <? fst b)%Z then b else a) l a) (a :: l)).
  { clear. induction l as [|b l IH]; intros a; [left; reflexivity|]. cbn [fold_left].
    destruct (IH (if (fst a <? fst b)%Z then b else a)) as [H|H].
    - rewrite <- H. destruct (_ <? _)%Z; simpl; auto.
    - right. right. exact H. }
  apply G.
Qed.
Lemma viterbi_length labels states transitions fs : labels <> [] ->
  length (viterbi labels states transitions fs) = length fs.
Proof.
  intros N. unfold viterbi. rewrite rev_length.
  match goal with |- context [fold_left ?st fs ?init] => set (step := st) end.
  assert (G : forall fs paths k, paths <> [] -> (forall p, In p paths -> length (snd p) = k) ->
                fold_left step fs paths <> [] /\
                forall p, In p (fold_left step fs paths) -> length (snd p) = length fs + k).
  { clear fs. induction fs as [|a fs IH]; intros paths k P L; [split; auto|]. cbn [fold_left length].
    destruct (IH (step paths a) (S k)) as [A B].
    - unfold step. destruct labels; [congruence|discriminate].
    - intros p Hp. unfold step in Hp. apply in_map_iff in Hp as (label & Hp & _).
      match type of Hp with context [best ?l] => assert (Q : l <> []) by (destruct paths; [congruence|discriminate]);
        pose proof (best_in l Q) as I; destruct (best l) as [z q] end.
      apply in_map_iff in I as ([z' q'] & I & Hq). cbn [fst snd] in I. injection I as _ I. rewrite <- Hp. cbn [snd length].
      f_equal. rewrite <- I. exact (L _ Hq).
    - split; [exact A|]. intros p Hp. rewrite (B p Hp). lia. }
  destruct (G fs [(0%Z, [])] 0) as [A B]; [discriminate|intros p [<-|[]]; reflexivity|].
  rewrite (B _ (best_in _ A)). lia.
Qed.
Lemma crf_ok labels states transitions : labels <> [] ->
  tagger_ok (crf labels states transitions) /\ tagger_never_panics (crf labels states transitions).
Proof.
  intros N. split.
  - intros fs tags H. cbn [tg_tag crf] in H. injection H as <-. apply viterbi_length. destruct labels; [congruence|discriminate].
  - intros fs. discriminate.
Qed.

Lemma shipped_externals f : externals_behave test_ext test_math test_loader f.
Proof.
  split; [exact test_tokenizer_ok|]. split; [exact test_exp_ok|]. split; [exact (plain_cell_ok _)|].
  split; [exact test_groups_fit|]. split; [|split].
  - intros p b H s kinds n. cbn [ld_builtin test_loader] in H. injection H as <-. unfold numbers. discriminate.
  - intros p g H s kinds n. cbn [ld_gazetteer test_loader] in H.
    assert (G : g = temperatures) by (injection H as <-; reflexivity). subst g. clear H. split; [discriminate|].
    intros es e He Hin. unfold temperatures in He. injection He as <-.
    destruct (match kinds with Some l => _ | None => _ end); [|contradiction].
    apply in_flat_map in Hin as (t & Ht & Hin). match type of Hin with In _ (if ?b then _ else _) => destruct b end; [|contradiction]. destruct Hin as [<-|[]].
    cbn [ce_range]. exact (proj1 (proj1 (test_tokenize_ok s) t Ht)).
  - intros p t H. cbn [ld_tagger test_loader] in H.
    destruct (list_eqb _ _ _); [injection H as <-; apply crf_ok; discriminate|].
    destruct (list_eqb _ _ _); [injection H as <-; apply crf_ok; discriminate|discriminate].
Qed.

(** ** The files are sound *)

Fixpoint nodupb {A} (eqb : A -> A -> bool) (l : list A) : bool :=
  match l with [] => true | a :: r => negb (existsb (eqb a) r) && nodupb eqb r end.
Lemma nodupb_ok {A} (eqb : A -> A -> bool) l : (forall a, eqb a a = true) -> nodupb eqb l = true -> NoDup l.
Proof.
  intros R. induction l as [|a l IH]; intros H; [constructor|]. cbn [nodupb] in H. apply andb_prop in H as [H1 H2].
  constructor; [|auto]. intros I. apply Bool.negb_true_iff in H1.
  assert (T : existsb (eqb a) l = true) by (apply existsb_exists; exists a; auto). congruence.
Qed.

Definition check_all_pairs (m : CoocModel) : bool :=
  nodupb Nat.eqb (map fst (cm_pairs m)) &&
  nodupb (fun a b => str_eqb (fst a) (fst b) && str_eqb (snd a) (snd b)) (map snd (cm_pairs m)) &&
  forallb (fun k => k <? length (cm_pairs m)) (map fst (cm_pairs m)).
Lemma all_pairs_checked m : check_all_pairs m = true -> good_pairs (cm_pairs m).
Proof.
  intros H. unfold check_all_pairs in H. apply andb_prop in H as [H H3]. apply andb_prop in H as [H1 H2]. split; [|split].
  - apply (nodupb_ok Nat.eqb); [apply Nat.eqb_refl|exact H1].
  - refine (nodupb_ok _ _ _ H2). intros [a b]. cbn [fst snd].
    rewrite (proj2 (str_eqb_spec a a) eq_refl), (proj2 (str_eqb_spec b b) eq_refl). reflexivity.
  - intros k Hk. rewrite forallb_forall in H3. apply Nat.ltb_lt. exact (H3 k Hk).
Qed.

Definition check_groups (m : DetModel) : bool :=
  forallb (fun ip => forallb (fun p => forallb (check_group m (fst ip)) (group_names (pieces (length p) p))) (snd ip))
          (dm_patterns m).
Lemma groups_checked m : check_groups m = true -> groups_declared small_compile m.
Proof.
  intros H i ps p r s caps n rg Hi Hp Hc Hr Hn. unfold check_groups in H. rewrite forallb_forall in H. apply H in Hi.
  cbn [fst snd] in Hi. rewrite forallb_forall in Hi. apply Hi in Hp. unfold small_compile in Hc.
  destruct (length p <=? 1000); [|discriminate]. injection Hc as <-.
  destruct (run_pieces (pieces (length p) p) s 0 None) as [cs|] eqn:R; [|discriminate]. injection Hr as <-.
  unfold named_captures in Hn. cbn [tl] in Hn.
  apply in_flat_map in Hn as ([[n'|] [rg'|]] & Hc & Hn); try destruct Hn as [Hn|[]]; try contradiction. injection Hn as -> ->.
  apply run_pieces_names in R as [_ R]. destruct (R _ _ Hc) as [Hg|[a Hg]]; [|discriminate].
  rewrite forallb_forall in Hp. apply Hp in Hg. unfold check_group in Hg.
  destruct (sget (before_underscore n) (dm_groups m)) as [slot|] eqn:E1; [|discriminate].
  destruct (sget i (dm_slots m)) as [decls|] eqn:E2; [|discriminate].
  destruct (sget slot decls) as [e|] eqn:E3; [|discriminate]. exists slot, e, (before_underscore n), decls.
  split; [apply base_name_before|]. auto.
Qed.

Definition check_null (m : ClassifierModel) : bool :=
  (2 <=? length (clm_intents m)) && existsb (fun i : option str => match i with None => true | _ => false end) (clm_intents m).
Lemma null_checked m : check_null m = true -> 2 <= length (clm_intents m) /\ In None (clm_intents m).
Proof.
  intros H. apply andb_prop in H as [H1 H2]. split; [apply Nat.leb_le; exact H1|].
  apply existsb_exists in H2 as ([i|] & I & E); [discriminate|exact I].
Qed.
Definition check_table (m : ClassifierModel) : bool :=
  match clm_intercept m, clm_coeffs m with
  | Some i, Some (first :: rest) => (length i <=? length (first :: rest)) &&
                                    forallb (fun row => length first <=? length row) (first :: rest)
  | Some _, Some [] => false
  | _, _ => true
  end.
Lemma table_checked m i c : check_table m = true -> clm_intercept m = Some i -> clm_coeffs m = Some c ->
  full_table (length i) c.
Proof.
  intros H Ei Ec. unfold check_table in H. rewrite Ei, Ec in H. destruct c as [|first rest]; [discriminate|].
  apply andb_prop in H as [H1 H2]. exists first, rest. split; [reflexivity|]. intros _. split; [apply Nat.leb_le; exact H1|].
  intros row Hr. assert (Hr' : In row (first :: rest)) by (rewrite <- (firstn_skipn (length i)); apply in_or_app; left; exact Hr). rewrite forallb_forall in H2. apply Nat.leb_le. exact (H2 row Hr').
Qed.

Definition check_file (f : string * string) : bool :=
  match read_document $(snd f) with
  | Some j =>
      holds check_tfidf (d_tfidf test_f32 (fun _ => id_order) j) &&
      holds check_all_pairs (d_cooccurrence (fun _ => id_order) j) &&
      holds check_lookup (d_lookup (fun _ => id_order) j) &&
      holds check_groups (d_deterministic (fun _ => id_order) j) &&
      holds check_filler (d_filler (fun _ => id_order) j) &&
      holds (fun m => check_classifier m && check_null m && check_table m) (d_classifier test_f32 j) &&
      holds (fun m => match rm_clusters m with Some (_ :: _) => false | _ => true end) (d_resources j)
  | None => true
  end.
Lemma files_checked : forallb check_file beverage_files = true.
Proof. vm_compute. reflexivity. Qed.

Lemma file_checked p j : json_at test_loader beverage_tree p j ->
  exists f, In f beverage_files /\ read_document $(snd f) = Some j /\ check_file f = true.
Proof.
  intros (c & F & J). apply files_in in F. apply in_map_iff in F as (f & E & I). injection E as _ E. subst c.
  exists f. split; [exact I|]. split; [exact J|]. pose proof files_checked as H. rewrite forallb_forall in H. exact (H f I).
Qed.

Lemma shipped_sound : sound_files test_loader (fun _ _ => id_order) beverage_tree.
Proof.
  intros p j J. apply file_checked in J as (f & _ & J & C). unfold check_file in C. rewrite J in C. clear J f.
  repeat (apply andb_prop in C as [C ?]). change (ld_f32 test_loader) with test_f32. change (ld_regex test_loader) with small_compile.
  split; [|split; [|split; [|split; [|split]]]]; intros m D.
  - rewrite D in C. exact (tfidf_checked m C).
  - rewrite D in H4. exact (all_pairs_checked m H4).
  - rewrite D in H3. exact (lookup_checked m H3).
  - rewrite D in H2. exact (groups_checked m H2).
  - rewrite D in H1. exact (filler_checked m H1).
  - rewrite D in H0. cbn [holds] in H0. apply andb_prop in H0 as [H0 _]. apply andb_prop in H0 as [H0 _]. exact (classifier_checked m H0).
Qed.

Lemma shipped_null : classifiers_with_null test_loader beverage_tree.
Proof.
  intros p j m J D. apply file_checked in J as (f & _ & J & C). unfold check_file in C. rewrite J in C. clear J f.
  repeat (apply andb_prop in C as [C ?]). change (ld_f32 test_loader) with test_f32 in D. rewrite D in H0. cbn [holds] in H0.
  apply andb_prop in H0 as [H0 _]. apply andb_prop in H0 as [_ H0]. exact (null_checked m H0).
Qed.

Lemma shipped_crash_free : crash_free_files test_loader beverage_tree.
Proof.
  split.
  - intros p j m i c J D Ei Ec. apply file_checked in J as (f & _ & J & C). unfold check_file in C. rewrite J in C. clear J f.
    repeat (apply andb_prop in C as [C ?]). change (ld_f32 test_loader) with test_f32 in D. rewrite D in H0. cbn [holds] in H0.
    apply andb_prop in H0 as [_ H0]. exact (table_checked m i c H0 Ei Ec).
  - intros dir j m names n text first rest J D E I. apply file_checked in J as (f & _ & J & C). unfold check_file in C.
    rewrite J in C. clear J f. repeat (apply andb_prop in C as [C ?]). rewrite D in H. cbn [holds] in H. rewrite E in H.
    destruct names; [contradiction|discriminate].
Qed.
Lemma shipped_calm : loaders_calm test_loader beverage_tree.
Proof.
  repeat split; intros p; cbn [ld_regex ld_builtin ld_gazetteer ld_tagger test_loader]; try discriminate.
  - unfold small_compile. destruct (_ <=? _); discriminate.
  - destruct (list_eqb _ _ _); [discriminate|]. destruct (list_eqb _ _ _); discriminate.
Qed.

(** ** The engine *)

Definition shipped : Engine :=
  get_ok no_engine
    (from_path test_ext test_shape test_ngrams test_math test_loader (fun _ _ => id_order) (fun _ _ => id_order)
       beverage_tree beverage_dir).
Lemma shipped_loaded :
  from_path test_ext test_shape test_ngrams test_math test_loader (fun _ _ => id_order) (fun _ _ => id_order)
    beverage_tree beverage_dir = Ok shipped.
Proof. apply get_ok_eq. vm_compute. reflexivity. Qed.

Lemma shipped_texts : texts_below_limit test_ext (en_resources shipped) two_coffees.
Proof.
  split; [vm_compute; reflexivity|]. intros s [(r & ->)|(l & stemmer & words & Hst & Hw & ->)].
  - cbn [x_lower test_ext]. rewrite map_length. unfold substring. rewrite firstn_length, skipn_length.
    assert (B : length two_coffees = 33) by (vm_compute; reflexivity). lia.
  - destruct Hst as [->| ->]; destruct Hw as [->| ->]; vm_compute; reflexivity.
Qed.
