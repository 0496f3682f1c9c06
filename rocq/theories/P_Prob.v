(** Proofs about the classifier and the probabilistic parser. *)
From Coq Require Import String List NArith ZArith Bool Arith Lia Permutation Sorted.
From Verif Require Import Base Sorting F32 M_Types M_Utils M_Engine M_Det M_Lookup M_Prob
  S_Engine S_Prob P_Base P_F32 P_Engine P_Rules P_Logit.
Import ListNotations.

(** ** Stable sorting of indexed elements *)
Lemma isort_strict {A} (leb : A -> A -> bool) (lt : A -> A -> Prop) (P : A -> Prop) l :
  (forall a b, P a -> P b -> leb a b = true \/ leb b a = true) ->
  (forall a b c, P a -> P b -> P c -> leb a b = true -> leb b c = true -> leb a c = true) ->
  Forall P l -> StronglySorted lt l ->
  StronglySorted (fun a b => leb a b = true /\ (leb b a = true -> lt a b)) (isort leb l).
Proof.
  intros Htot Htr. induction l as [|x l IH]; simpl; intros F S; [constructor|].
  inv F. inv S.
  assert (FS : Forall P (isort leb l)).
  { rewrite Forall_forall in *. intros z Hz. rewrite isort_In in Hz. auto. }
  assert (FL : Forall (lt x) (isort leb l)).
  { rewrite Forall_forall in *. intros z Hz. rewrite isort_In in Hz. auto. }
  specialize (IH H2 H3). revert IH FS FL. generalize (isort leb l) as m.
  induction m as [|y m IHm]; simpl; intros S FS FL.
  - repeat constructor.
  - inv S. inv FS. inv FL. destruct (leb x y) eqn:E.
    + constructor; [constructor; auto|]. constructor; auto.
      rewrite Forall_forall in *. intros z Hz. split; auto.
      apply (Htr x y z); auto. apply H6; auto.
    + constructor; [apply IHm; auto|].
      rewrite Forall_forall in *. intros z Hz.
      apply (Permutation_in _ (Permutation_sym (insert_perm leb x m))) in Hz.
      destruct Hz as [<-|Hz]; auto.
      split; [destruct (Htot x y); auto; congruence|]. congruence.
Qed.

(** ** Ranking *)
Notation ientry := (nat * IntentResult)%type.
Definition ikeep (wl : option (list str)) (r : IntentResult) : bool :=
  match ir_name r with
  | Some i => match wl with Some w => smem i w | None => true end
  | None => true
  end.

Lemma ikeep_permitted wl r : ikeep wl r = true <-> permitted wl (ir_name r).
Proof.
  unfold ikeep, permitted. destruct (ir_name r) as [i|], wl as [w|]; split; intros H; auto; try discriminate.
  - intros i' l E1 E2. inv E1. inv E2. apply smem_spec. exact H.
  - apply smem_spec. apply H; auto.
Qed.

(** Classes with their position. *)
Fixpoint ientries (n : nat) (l : list (option str * f32)) : list ientry :=
  match l with
  | [] => []
  | (i, s) :: r => (n, mkIR i s) :: ientries (S n) r
  end.

Lemma ientries_snd n l : map snd (ientries n l) = map (fun is => mkIR (fst is) (snd is)) l.
Proof. revert n. induction l as [|[i s] l IH]; simpl; intros; auto. rewrite IH. auto. Qed.

Lemma ientries_In n l k r :
  In (k, r) (ientries n l) <-> n <= k /\ nth_error l (k - n) = Some (ir_name r, ir_score r).
Proof.
  revert n. induction l as [|[i s] l IH]; simpl; intros n.
  - split; [contradiction|]. intros [_ H]. destruct (k - n); discriminate.
  - rewrite IH. split.
    + intros [H|[H1 H2]].
      * inv H. split; auto. rewrite Nat.sub_diag. reflexivity.
      * split; [lia|]. replace (k - n) with (S (k - S n)) by lia. exact H2.
    + intros [H1 H2]. destruct (Nat.eq_dec k n) as [->|N].
      * left. rewrite Nat.sub_diag in H2. inv H2. destruct r; auto.
      * right. split; [lia|]. replace (k - n) with (S (k - S n)) in H2 by lia. exact H2.
Qed.

Lemma ientries_sorted n l : StronglySorted (fun a b : ientry => fst a < fst b) (ientries n l).
Proof.
  revert n. induction l as [|[i s] l IH]; simpl; intros n; constructor; auto.
  apply Forall_forall. intros [k r] H. apply ientries_In in H. simpl. lia.
Qed.

Lemma filter_sorted {A} (R : A -> A -> Prop) p l : StronglySorted R l -> StronglySorted R (filter p l).
Proof.
  induction 1; simpl; [constructor|]. destruct (p a); auto. constructor; auto.
  rewrite Forall_forall in *. intros x Hx. apply filter_In in Hx. apply H0. tauto.
Qed.

Lemma nth_error_combine {A B} (l : list A) (m : list B) k a b :
  nth_error (combine l m) k = Some (a, b) <-> nth_error l k = Some a /\ nth_error m k = Some b.
Proof.
  revert l m. induction k; intros [|x l] [|y m]; simpl; try (split; [discriminate|intros []; discriminate]).
  - split; [inversion 1; auto|intros [H1 H2]; inv H1; inv H2; auto].
  - apply IHk.
Qed.

Lemma sorted_nth_pair {A} (R : A -> A -> Prop) l a b x y :
  StronglySorted R l -> a < b -> nth_error l a = Some x -> nth_error l b = Some y -> R x y.
Proof.
  intros S. revert a b. induction S; intros i j L H1 H2.
  - destruct i; discriminate.
  - destruct i; simpl in H1.
    + inv H1. destruct j; [lia|]. simpl in H2. rewrite Forall_forall in H. apply H.
      eapply nth_error_In; eauto.
    + destruct j; [lia|]. simpl in H2. apply (IHS i j); auto. lia.
Qed.

Lemma filter_map_snd p (l : list ientry) :
  map snd (filter (fun e => p (snd e)) l) = filter p (map snd l).
Proof. induction l as [|[k r] l IH]; simpl; auto. destruct (p r); simpl; rewrite IH; auto. Qed.

Lemma existsb_map' {A B} (f : A -> B) p l : existsb p (map f l) = existsb (fun a => p (f a)) l.
Proof. induction l; simpl; auto. rewrite IHl. auto. Qed.

Lemma ranking classes scores wl l :
  sort_desc ir_score (filter (ikeep wl) (map (fun is => mkIR (fst is) (snd is)) (combine classes scores))) = Ok l ->
  exists ks, ranks_classes classes scores wl ks l.
Proof.
  intros H.
  set (es := filter (fun e : ientry => ikeep wl (snd e)) (ientries 0 (combine classes scores))).
  assert (E : filter (ikeep wl) (map (fun is => mkIR (fst is) (snd is)) (combine classes scores)) = map snd es).
  { unfold es. rewrite filter_map_snd, ientries_snd. reflexivity. }
  rewrite E in H.
  set (sorted := isort (fun a b : ientry => fle (ir_score (snd b)) (ir_score (snd a))) es).
  assert (Hl : l = map snd sorted).
  { unfold sort_desc in H. destruct (_ && _); inv H.
    symmetry. apply isort_map. intros; reflexivity. }
  assert (NN : 2 <= length es -> Forall (fun e : ientry => fis_nan (ir_score (snd e)) = false) es).
  { intros L. unfold sort_desc in H. rewrite map_length in H.
    apply Nat.leb_le in L. rewrite L, existsb_map' in H. cbv [andb] in H.
    destruct (existsb _ es) eqn:X; inv H. apply Forall_forall. intros e He.
    destruct (fis_nan (ir_score (snd e))) eqn:N; auto. rewrite <- X. symmetry.
    apply existsb_exists. eauto. }
  assert (ND : NoDup (map fst es)).
  { assert (S : StronglySorted (fun a b : ientry => fst a < fst b) es) by apply filter_sorted, ientries_sorted.
    clear - S. induction S; simpl; constructor; auto.
    intros H1. apply in_map_iff in H1 as (x & E & Hx). rewrite Forall_forall in H. apply H in Hx. lia. }
  assert (MEM : forall k r, In (k, r) sorted <->
                  nth_error classes k = Some (ir_name r) /\ nth_error scores k = Some (ir_score r) /\
                  permitted wl (ir_name r)).
  { intros k r. unfold sorted. rewrite isort_In. unfold es. rewrite filter_In, ientries_In.
    rewrite Nat.sub_0_r, nth_error_combine. simpl snd. rewrite ikeep_permitted. intuition lia. }
  exists (map fst sorted). split; [|split; [|split]].
  - eapply Permutation_NoDup; [|exact ND]. apply Permutation_map. apply isort_perm.
  - intros k. rewrite in_map_iff. split.
    + intros ((k' & r) & E' & Hk). simpl in E'. subst k'. apply MEM in Hk. exists (ir_name r), (ir_score r). tauto.
    + intros (i & s & H1 & H2 & H3). exists (k, mkIR i s). split; auto. apply MEM. simpl. auto.
  - rewrite Hl. assert (G : forall e, In e sorted -> nth_error classes (fst e) = Some (ir_name (snd e)) /\
       nth_error scores (fst e) = Some (ir_score (snd e))).
    { intros [k r] Hk. apply MEM in Hk. simpl. tauto. }
    revert G. generalize sorted as m. induction m; simpl; intros G; constructor; auto.
  - intros a b ka kb ra rb L Ka Kb Ra Rb.
    assert (S : StronglySorted (fun x y : ientry => fle (ir_score (snd y)) (ir_score (snd x)) = true /\
               (fle (ir_score (snd x)) (ir_score (snd y)) = true -> fst x < fst y)) sorted).
    { destruct (le_lt_dec 2 (length es)) as [L2|L2].
      - unfold sorted.
        apply isort_strict with (lt := fun x y : ientry => fst x < fst y)
                                (P := fun e : ientry => fis_nan (ir_score (snd e)) = false).
        + intros x y Hx Hy. destruct (fle_total _ _ Hx Hy); auto.
        + intros x y z _ _ _ H1 H2. eapply fle_trans; eauto.
        + auto.
        + apply filter_sorted, ientries_sorted.
      - unfold sorted. destruct es as [|e [|? ?]]; simpl in *; try lia; repeat constructor. }
    rewrite nth_error_map in Ka, Kb. rewrite Hl, nth_error_map in Ra, Rb.
    destruct (nth_error sorted a) as [ea|] eqn:Ea; [|discriminate].
    destruct (nth_error sorted b) as [eb|] eqn:Eb; [|discriminate].
    simpl in *. inv Ka. inv Kb. inv Ra. inv Rb.
    exact (sorted_nth_pair _ _ _ _ _ _ S L Ea Eb).
Qed.

(** ** The classifier *)
Lemma scored_unfold mx c input wl t lr :
  scores_text c input -> cl_featurizer c = Some t -> cl_logreg c = Some lr ->
  get_intents_with_whitelist mx c input wl =
    let* fs := t input in
    let* scores := logreg_run mx lr fs in
    sort_desc ir_score (filter (ikeep wl) (map (fun is => mkIR (fst is) (snd is)) (combine (cl_intents c) scores))).
Proof.
  intros (L & N & _ & _) Ht Hl. unfold get_intents_with_whitelist.
  replace (length (cl_intents c) <=? 1) with false by (symmetry; apply Nat.leb_gt; lia).
  destruct input; [congruence|]. rewrite Ht, Hl. reflexivity.
Qed.

Lemma classifier_lists mx c input wl t lr fs scores l :
  scores_text c input -> cl_featurizer c = Some t -> cl_logreg c = Some lr ->
  t input = Ok fs -> logreg_run mx lr fs = Ok scores ->
  get_intents_with_whitelist mx c input wl = Ok l ->
  exists ks, ranks_classes (cl_intents c) scores wl ks l.
Proof.
  intros S Ht Hl Hf Hs H. rewrite (scored_unfold _ _ _ _ t lr S Ht Hl), Hf in H. simpl in H.
  rewrite Hs in H. simpl in H. apply ranking. exact H.
Qed.

Lemma ranks_names classes scores wl ks l i :
  ranks_classes classes scores wl ks l -> forall r, In r l -> ir_name r = Some i ->
  In (Some i) classes /\ forall w, wl = Some w -> In i w.
Proof.
  intros (ND & MEM & F & _) r Hr E.
  apply In_nth_error in Hr as [p Hp].
  assert (exists k, In k ks /\ nth_error classes k = Some (ir_name r)) as (k & Hk & Ek).
  { clear - F Hp. revert p Hp. induction F; intros p Hp; [destruct p; discriminate|].
    destruct p; simpl in Hp.
    - inv Hp. exists x. simpl. tauto.
    - apply IHF in Hp as (k & H1 & H2). exists k. simpl. auto. }
  rewrite E in Ek. split; [eapply nth_error_In; eauto|].
  apply MEM in Hk as (i' & s & H1 & H2 & H3). rewrite Ek in H1. inv H1.
  intros w Hw. eapply H3; eauto.
Qed.

(** Unscored texts: the null class first, when there is one. *)
Lemma unscored_unfold mx c input wl :
  2 <= length (cl_intents c) -> (input = [] \/ cl_featurizer c = None \/ cl_logreg c = None) ->
  get_intents_with_whitelist mx c input wl =
  sort_desc ir_score (map (fun i => mkIR i (match i with None => f1 | Some _ => f0 end)) (cl_intents c)).
Proof.
  intros L H. unfold get_intents_with_whitelist.
  replace (length (cl_intents c) <=? 1) with false by (symmetry; apply Nat.leb_gt; lia).
  destruct input; auto. destruct (cl_featurizer c); auto. destruct (cl_logreg c); auto.
  destruct H as [H|[H|H]]; discriminate.
Qed.

Definition unscored (i : option str) : IntentResult := mkIR i (match i with None => f1 | Some _ => f0 end).


Lemma unscored_ok l :
  sort_desc ir_score (map unscored l)
  = Ok (isort (fun a b => fle (ir_score b) (ir_score a)) (map unscored l)).
Proof.
  apply sort_desc_no_nan. apply Forall_forall. intros r H. apply in_map_iff in H as (i & <- & _).
  destruct i; reflexivity.
Qed.

Lemma unscored_sorted l :
  isort (fun a b => fle (ir_score b) (ir_score a)) (map unscored l)
  = map unscored (filter (fun i => match i with None => true | _ => false end) l) ++
    map unscored (filter (fun i => match i with None => false | _ => true end) l).
Proof.
  induction l as [|i l IH]; [reflexivity|].
  cbn [map isort]. rewrite IH. clear IH.
  set (nones := filter (fun i => match i with None => true | _ => false end) l).
  set (somes := filter (fun i => match i with None => false | _ => true end) l).
  assert (HS : forall r, In r (map unscored somes) -> ir_score r = f0).
  { intros r H. apply in_map_iff in H as (j & <- & Hj). apply filter_In in Hj. destruct j; [reflexivity|].
    destruct Hj; discriminate. }
  assert (HN : forall r, In r (map unscored nones) -> ir_score r = f1).
  { intros r H. apply in_map_iff in H as (j & <- & Hj). apply filter_In in Hj. destruct j; [|reflexivity].
    destruct Hj; discriminate. }
  destruct i as [i|]; cbn [filter]; fold nones somes.
  - cbn [map]. revert HN. generalize (map unscored nones) as m. induction m as [|r m IHm]; intros HN.
    + cbn [app]. destruct (map unscored somes) as [|r s]; [reflexivity|].
      cbn [insert]. rewrite (HS r) by (left; auto). reflexivity.
    + cbn [app insert]. rewrite (HN r) by (left; auto).
      replace (fle f1 (ir_score (unscored (Some i)))) with false by reflexivity.
      rewrite IHm by (intros; apply HN; right; auto). reflexivity.
  - cbn [map app]. remember (map unscored nones ++ map unscored somes) as m.
    destruct m as [|r m]; [reflexivity|]. cbn [insert].
    assert (In r (map unscored nones ++ map unscored somes)) as Hr by (rewrite <- Heqm; left; auto).
    apply in_app_iff in Hr as [Hr|Hr]; [rewrite (HN r Hr)|rewrite (HS r Hr)]; reflexivity.
Qed.

Lemma unscored_first mx c input wl :
  2 <= length (cl_intents c) -> (input = [] \/ cl_featurizer c = None \/ cl_logreg c = None) ->
  In None (cl_intents c) ->
  cl_get_intent mx c input wl = Ok (mkIR None f1).
Proof.
  intros L H HN. unfold cl_get_intent. rewrite unscored_unfold by auto.
  change (map (fun i : option str => mkIR i (match i with None => f1 | Some _ => f0 end)) (cl_intents c))
    with (map unscored (cl_intents c)).
  rewrite unscored_ok, unscored_sorted. cbn [bind].
  destruct (filter (fun i : option str => match i with None => true | _ => false end) (cl_intents c)) as [|j r] eqn:E.
  - exfalso. assert (In (None : option str) []) as [].
    rewrite <- E. apply filter_In. auto.
  - assert (In j (j :: r)) as Hj by (left; auto). rewrite <- E in Hj. apply filter_In in Hj as [_ Hj].
    destruct j; [discriminate|]. reflexivity.
Qed.

Lemma scores_text_dec c input :
  2 <= length (cl_intents c) ->
  scores_text c input \/ (input = [] \/ cl_featurizer c = None \/ cl_logreg c = None).
Proof.
  intros L. unfold scores_text. destruct input; auto. destruct (cl_featurizer c); auto.
  destruct (cl_logreg c); auto. left. repeat split; auto; discriminate.
Qed.

Lemma scored_honours mx c input w r i :
  scores_text c input -> cl_get_intent mx c input (Some w) = Ok r -> ir_name r = Some i -> In i w.
Proof.
  intros S H E. assert (S' := S). destruct S' as (L & N & Ft & Fl).
  destruct (cl_featurizer c) as [t|] eqn:Et; [|congruence].
  destruct (cl_logreg c) as [lr|] eqn:El; [|congruence].
  unfold cl_get_intent in H. bind_inv H. rename a into rs, E0 into Hrs.
  assert (Hrs' := Hrs). rewrite (scored_unfold _ _ _ _ t lr S Et El) in Hrs.
  bind_inv Hrs. bind_inv Hrs. rename a into fs, a0 into scores.
  destruct (classifier_lists _ _ _ _ _ _ _ _ _ S Et El E0 E1 Hrs') as [ks R].
  destruct rs as [|r0 rs].
  - inv H. discriminate.
  - inv H. apply (ranks_names _ _ _ _ _ i R r (or_introl eq_refl) E). reflexivity.
Qed.

Lemma filterable_honours mx c input w r i :
  filterable c -> cl_get_intent mx c input (Some w) = Ok r -> ir_name r = Some i -> In i w.
Proof.
  intros [L HN] H E. destruct (scores_text_dec c input L) as [S|U].
  - eapply scored_honours; eauto.
  - rewrite (unscored_first mx c input (Some w) L U HN) in H. inv H. discriminate.
Qed.

Lemma prob_honours mx c o fillers :
  filterable c -> honours_filter (prob_intent_parser (prob_new o (logreg_classifier mx c) fillers)).
Proof.
  intros S input l r i H E. simpl in H. unfold prob_parse in H. simpl in H.
  bind_inv H. bind_inv H. inv H. simpl in E.
  eapply filterable_honours; eauto.
Qed.

Lemma library_honours p : library_parser p -> honours_filter p.
Proof.
  intros [x o dp|x o lp|mx c o fillers H].
  - apply det_honours.
  - apply lookup_honours.
  - apply prob_honours. exact H.
Qed.

Lemma library_filters x o1 o2 en input w b n salts res :
  (forall p, In p (en_parsers en) -> library_parser p) ->
  (w <> None \/ b <> None) ->
  parse_with_alternatives x o1 o2 en input w b n salts = Ok res ->
  (forall i, ir_name (ps_intent res) = Some i -> known en i /\ allowed w b i) /\
  (forall a i, In a (ps_alternatives res) -> ir_name (al_intent a) = Some i ->
               known en i /\ allowed w b i).
Proof.
  intros H. apply filters_honoured. intros p Hp. apply library_honours; auto.
Qed.

(** ** The regression *)
Lemma logreg_run_shape mx lr fs :
  (logreg_run mx lr fs = Err EShape <-> length fs <> length (lr_rows lr) - 1) /\
  (length fs = length (lr_rows lr) - 1 -> exists scores, logreg_run mx lr fs = Ok scores).
Proof.
  unfold logreg_run. destruct (Nat.eqb_spec (length fs) (length (lr_rows lr) - 1)).
  - split; [split; [discriminate|contradiction]|]. eauto.
  - split; [split; auto|]. intros; contradiction.
Qed.

Lemma mapM_ok_all {A B} (f : A -> outcome B) l :
  (forall a, In a l -> exists b, f a = Ok b) -> exists r, mapM f l = Ok r.
Proof.
  induction l as [|a l IH]; simpl; intros H; eauto.
  destruct (H a) as [b E]; auto. destruct IH as [r E']; auto.
  rewrite E, E'. simpl. eauto.
Qed.

Lemma index_ok {A} (l : list A) i a : index l i = Ok a <-> nth_error l i = Some a.
Proof. unfold index. destruct (nth_error l i); split; congruence. Qed.
Lemma index_panic {A} (l : list A) i : index l i = Panic <-> length l <= i.
Proof. unfold index. rewrite <- nth_error_None. destruct (nth_error l i); split; congruence. Qed.
Lemma index_not_err {A} (l : list A) i e : index l i <> Err e.
Proof. unfold index. destruct (nth_error l i); discriminate. Qed.

Lemma nth_firstn {A} (l : list A) n k : k < n -> nth_error (firstn n l) k = nth_error l k.
Proof.
  revert l k. induction n; intros [|x l] [|k] H; simpl; auto; try lia.
  apply IHn. lia.
Qed.

Lemma firstn_In_nth {A} (l : list A) n a :
  In a (firstn n l) <-> exists k, k < n /\ nth_error l k = Some a.
Proof.
  split.
  - intros H. apply In_nth_error in H as [k Hk].
    assert (L : k < length (firstn n l)) by (apply nth_error_Some; congruence).
    rewrite firstn_length in L. exists k. split; [lia|]. rewrite nth_firstn in Hk by lia. exact Hk.
  - intros (k & L & H). rewrite <- (nth_firstn l n k L) in H. eapply nth_error_In; eauto.
Qed.

Lemma mapM_no_err' {A B} (f : A -> outcome B) l e :
  (forall a, In a l -> forall e, f a <> Err e) -> mapM f l <> Err e.
Proof.
  induction l as [|x l IH]; simpl; intros H; [discriminate|].
  destruct (f x) eqn:E; simpl; try discriminate.
  - destruct (mapM f l) eqn:E2; simpl; try discriminate. intros K. inv K. apply IH; auto.
  - exfalso. apply (H x (or_introl eq_refl) e0). exact E.
Qed.

(** Loading a regression: the matrix, or a crash when a coefficient is missing. *)
Lemma logreg_new_spec intercept coeffs :
  match logreg_new intercept coeffs with
  | Ok lr =>
      full_table (length intercept) coeffs /\
      lr_classes lr = length intercept /\
      length (lr_rows lr) = S (length (hd [] coeffs)) /\
      nth_error (lr_rows lr) 0 = Some intercept /\
      (forall i j, i < length (hd [] coeffs) -> j < length intercept ->
         exists row cls, nth_error (lr_rows lr) (S i) = Some row /\ nth_error coeffs j = Some cls /\
           length row = length intercept /\ nth_error row j = nth_error cls i)
  | Err _ => False
  | Panic => ~ full_table (length intercept) coeffs
  end.
Proof.
  unfold logreg_new. destruct coeffs as [|first rest]; [simpl; intros (f & r & E & _); discriminate|].
  set (coeffs := first :: rest). change (index coeffs 0) with (Ok first : outcome (list f32)). cbn [bind hd].
  set (cell := fun i j => let* row := index coeffs j in index row i).
  change (match (let* weights := mapM (fun i => mapM (cell i) (seq 0 (length intercept))) (seq 0 (length first)) in
                 Ok (mkLR (length intercept) (intercept :: weights))) with
  | Ok lr => full_table (length intercept) coeffs /\
      lr_classes lr = length intercept /\
      length (lr_rows lr) = S (length first) /\
      nth_error (lr_rows lr) 0 = Some intercept /\
      (forall i j, i < length first -> j < length intercept ->
         exists row cls, nth_error (lr_rows lr) (S i) = Some row /\ nth_error coeffs j = Some cls /\
           length row = length intercept /\ nth_error row j = nth_error cls i)
  | Err _ => False
  | Panic => ~ full_table (length intercept) coeffs
  end).
  assert (NE : forall i j e, cell i j <> Err e).
  { intros i j e. unfold cell. destruct (index coeffs j) eqn:E; simpl; try discriminate.
    - apply index_not_err.
    - exfalso. exact (index_not_err _ _ _ E). }
  destruct (mapM (fun i => mapM (cell i) (seq 0 (length intercept))) (seq 0 (length first))) as [ws|e|] eqn:E; simpl.
  - assert (LW : length ws = length first).
    { apply mapM_ok_length in E. rewrite seq_length in E. auto. }
    apply mapM_ok_Forall2 in E.
    assert (ROW : forall i, i < length first -> exists row, nth_error ws i = Some row /\
                   mapM (cell i) (seq 0 (length intercept)) = Ok row).
    { intros i Hi. destruct (nth_error ws i) as [row|] eqn:W.
      - exists row. split; auto.
        assert (G : forall s, Forall2 (fun x y => mapM (cell x) (seq 0 (length intercept)) = Ok y)
                          (seq s (length first)) ws -> mapM (cell (s + i)) (seq 0 (length intercept)) = Ok row).
        { clear E. revert ws LW W Hi. generalize (length first) as n. clear.
          induction i; intros n ws LW W Hi s F.
          - destruct n; [lia|]. simpl in F. inv F. simpl in W. inv W. rewrite Nat.add_0_r. exact H1.
          - destruct n; [lia|]. simpl in F. inv F. simpl in W.
            replace (s + S i) with (S s + i) by lia.
            apply (IHi n l'); simpl in *; auto; lia. }
        apply (G 0). exact E.
      - apply nth_error_None in W. lia. }
    assert (CELL : forall i j, i < length first -> j < length intercept ->
      exists row cls v, nth_error ws i = Some row /\ nth_error coeffs j = Some cls /\
        length row = length intercept /\ nth_error row j = Some v /\ nth_error cls i = Some v).
    { intros i j Hi Hj. destruct (ROW i Hi) as (row & W & M).
      assert (LR := mapM_ok_length _ _ _ M). rewrite seq_length in LR.
      apply mapM_ok_Forall2 in M.
      assert (G : forall n s row j, Forall2 (fun x y => cell i x = Ok y) (seq s n) row -> j < n ->
                    exists v, nth_error row j = Some v /\ cell i (s + j) = Ok v).
      { clear. induction n; intros s row j F Hj; [lia|]. simpl in F. inv F. destruct j; simpl.
        - exists y. rewrite Nat.add_0_r. auto.
        - destruct (IHn (S s) l' j) as (v & H2 & H4); auto; [lia|]. exists v.
          replace (s + S j) with (S s + j) by lia. auto. }
      destruct (G _ _ _ j M Hj) as (v & Hv & C). simpl in C. unfold cell in C.
      bind_inv C. apply index_ok in E0, C.
      exists row, a, v. auto. }
    split; [|split; [|split; [|split]]]; auto.
    + exists first, rest. split; auto. intros NEf.
      assert (0 < length first) by (destruct first; [congruence|simpl; lia]).
      split.
      * destruct (le_lt_dec (length intercept) (length coeffs)) as [L|L]; auto.
        destruct (CELL 0 (length coeffs)) as (r & c & v & _ & C & _); auto.
        assert (length coeffs < length coeffs) by (apply nth_error_Some; congruence). lia.
      * intros row Hr. apply firstn_In_nth in Hr as (j & Hj & Hn).
        destruct (CELL (length first - 1) j) as (r & c & v & _ & C & _ & _ & V); auto; [lia|].
        rewrite Hn in C. inv C.
        assert (length first - 1 < length c) by (apply nth_error_Some; congruence). lia.
    + intros i j Hi Hj. destruct (CELL i j Hi Hj) as (row & cls & v & H1 & H2 & H3 & H4 & H5).
      exists row, cls. rewrite H4, H5. auto.
  - exfalso. revert E. apply mapM_no_err'; auto. intros i Hi e'. apply mapM_no_err'. auto.
  - intros (f & r & Ef & Hf). unfold coeffs in Ef. inv Ef.
    assert (exists ws, mapM (fun i => mapM (cell i) (seq 0 (length intercept))) (seq 0 (length f)) = Ok ws) as [ws K].
    { apply mapM_ok_all. intros i Hi. apply in_seq in Hi. apply mapM_ok_all. intros j Hj. apply in_seq in Hj.
      destruct Hf as [L R]; [intros ->; simpl in Hi; lia|].
      fold coeffs in L, R.
      destruct (nth_error coeffs j) as [row|] eqn:Ej; [|apply nth_error_None in Ej; lia].
      assert (length f <= length row) by (apply R; apply firstn_In_nth; exists j; split; [lia|auto]).
      destruct (nth_error row i) as [v|] eqn:Ei; [|apply nth_error_None in Ei; lia].
      exists v. unfold cell, index. rewrite Ej. simpl. rewrite Ei. reflexivity. }
    congruence.
Qed.

(** Scores. *)
Lemma logreg_scores mx lr fs scores :
  logreg_run mx lr fs = Ok scores ->
  (lr_classes lr <> 1 ->
     length scores = lr_classes lr /\
     forall j, j < lr_classes lr ->
       nth_error scores j = Some (logistic mx (mx_cell mx (f1 :: fs) (lr_rows lr) j))) /\
  (lr_classes lr = 1 ->
     exists p, p = logistic mx (mx_cell mx (f1 :: fs) (lr_rows lr) 0) /\ scores = [fsub f1 p; p]).
Proof.
  unfold logreg_run. destruct (length fs =? _); [|discriminate]. intros H.
  destruct (Nat.eqb_spec (lr_classes lr) 1) as [E|E].
  - split; [contradiction|]. intros _. rewrite E in H. simpl in H. inv H. eexists. split; reflexivity.
  - split; [|contradiction]. intros _. inv H. rewrite map_length, seq_length. split; auto.
    intros j Hj. rewrite nth_error_map.
    assert (S : nth_error (seq 0 (lr_classes lr)) j = Some j).
    { rewrite (nth_error_nth' _ 0) by (rewrite seq_length; auto). rewrite seq_nth by auto. reflexivity. }
    rewrite S. reflexivity.
Qed.

Lemma logreg_unit mx lr fs scores :
  exp_ok mx -> (forall j, j < lr_classes lr -> fis_nan (mx_cell mx (f1 :: fs) (lr_rows lr) j) = false) ->
  logreg_run mx lr fs = Ok scores -> forall s, In s scores -> in_unit s.
Proof.
  intros X N H s Hs. apply logreg_scores in H as [H1 H2].
  destruct (Nat.eq_dec (lr_classes lr) 1) as [E|E].
  - destruct (H2 E) as (p & Hp & ->).
    assert (U : in_unit p) by (subst p; apply logistic_unit; auto; apply N; lia).
    destruct Hs as [<-|[<-|[]]]; auto. apply complement_unit. exact U.
  - destruct (H1 E) as [L K]. apply In_nth_error in Hs as [j Hj].
    assert (j < length scores) by (apply nth_error_Some; congruence).
    rewrite K in Hj by lia. inv Hj. apply logistic_unit; auto. apply N. lia.
Qed.

(** With at least two permitted classes, a NaN score is a crash. *)
Lemma classifier_features mx c input w lr l :
  scores_text c input -> cl_logreg c = Some lr -> get_intents_with_whitelist mx c input w = Ok l ->
  exists fs scores ks, cl_compute_features c input = Ok fs /\ logreg_run mx lr fs = Ok scores /\
    ranks_classes (cl_intents c) scores w ks l.
Proof.
  intros ST Hl H. assert (ST' := ST). destruct ST' as (N2 & Ni & Nf & _).
  destruct (cl_featurizer c) as [t|] eqn:Hf; [|contradiction].
  assert (K : exists fs scores, t input = Ok fs /\ logreg_run mx lr fs = Ok scores).
  { assert (H' := H). unfold get_intents_with_whitelist in H'. rewrite Hf, Hl in H'.
    destruct (length (cl_intents c) <=? 1) eqn:E; [apply Nat.leb_le in E; lia|].
    destruct input; [contradiction|]. bind_inv H'. bind_inv H'. eauto. }
  destruct K as (fs & scores & Ef & Es).
  destruct (classifier_lists mx c input w t lr fs scores l ST Hf Hl Ef Es H) as (ks & R).
  exists fs, scores, ks. unfold cl_compute_features. rewrite Hf. auto.
Qed.
Lemma no_featurizer c input : cl_featurizer c = None -> cl_compute_features c input = Ok [].
Proof. intros E. unfold cl_compute_features. rewrite E. reflexivity. Qed.
Lemma classifier_no_panic mx c input wl t lr fs scores :
  scores_text c input -> cl_featurizer c = Some t -> cl_logreg c = Some lr ->
  t input = Ok fs -> logreg_run mx lr fs = Ok scores ->
  (forall s, In s scores -> fis_nan s = false) ->
  exists l, get_intents_with_whitelist mx c input wl = Ok l.
Proof.
  intros S Ht Hl Hf Hs N. rewrite (scored_unfold _ _ _ _ t lr S Ht Hl), Hf. simpl.
  rewrite Hs. simpl. rewrite sort_desc_no_nan; eauto.
  apply Forall_forall. intros r Hr. apply filter_In in Hr as [Hr _].
  apply in_map_iff in Hr as ([i s] & <- & Hr). simpl. apply N.
  apply in_combine_r in Hr. exact Hr.
Qed.

Lemma get_intent_first mx c input wl :
  cl_get_intent mx c input wl =
  match get_intents_with_whitelist mx c input wl with
  | Ok (r :: _) => Ok r
  | Ok [] => Ok (mkIR None f1)
  | Err e => Err e
  | Panic => Panic
  end.
Proof. unfold cl_get_intent. destruct (get_intents_with_whitelist _ _ _ _) as [[|]| |]; reflexivity. Qed.

Lemma ranks_NoDup classes scores wl ks l :
  NoDup classes -> ranks_classes classes scores wl ks l -> NoDup (map ir_name l).
Proof.
  intros ND (NK & _ & F & _). clear - ND NK F. induction F; simpl; constructor.
  - intros H1. apply in_map_iff in H1 as (r & E & Hr).
    apply In_nth_error in Hr as [p Hp].
    assert (exists k, In k l /\ nth_error classes k = Some (ir_name r)) as (k & Hk & Ek).
    { clear - F Hp. revert p Hp. induction F; intros p Hp; [destruct p; discriminate|].
      destruct p; simpl in Hp.
      - inv Hp. exists x. simpl. tauto.
      - apply IHF in Hp as (k & H1 & H2). exists k. simpl. auto. }
    inv NK. apply H2. destruct H as [H _]. rewrite E in Ek.
    replace x with k; auto.
    apply (proj1 (NoDup_nth_error classes)); auto.
    + apply nth_error_Some. congruence.
    + congruence.
  - inv NK. auto.
Qed.

(** ** The probabilistic parser *)
Lemma prob_fillers o cl fillers i :
  sget i (pp_fillers (prob_new o cl fillers)) = sget i (rev fillers).
Proof.
  simpl.
  assert (E : sget i (reorder o (hcollect str_eqb fillers)) = sget i (hcollect str_eqb fillers)).
  { unfold sget. symmetry. apply hget_perm.
    - exact str_eqb_spec.
    - apply hcollect_NoDup. exact str_eqb_spec.
    - apply reorder_perm. }
  rewrite E. apply hget_hcollect. exact str_eqb_spec.
Qed.

Lemma own_filler_spec fillers i f : sget i (rev fillers) = Some f <-> own_filler fillers i f.
Proof.
  unfold sget, own_filler. induction fillers as [|[k v] l IH] using rev_ind.
  - simpl. split; [discriminate|]. intros (b & a & E & _). destruct b; discriminate.
  - rewrite rev_app_distr. simpl. destruct (str_eqb i k) eqn:E.
    + apply str_eqb_spec in E. subst k. split.
      * intros H. inv H. exists l, []. auto.
      * intros (b & a & Eq & N). destruct a as [|x a] using rev_ind.
        -- apply app_inj_tail in Eq as [_ Eq]. inv Eq. reflexivity.
        -- exfalso. clear IHa. rewrite app_comm_cons, app_assoc in Eq. apply app_inj_tail in Eq as [_ Eq]. subst x.
           apply N. rewrite map_app. apply in_or_app. right. simpl. auto.
    + rewrite IH. apply str_eqb_neq in E. split.
      * intros (b & a & -> & N). exists b, (a ++ [(k, v)]). rewrite <- app_assoc. split; auto.
        rewrite map_app. simpl. intros H. apply in_app_iff in H as [H|[H|[]]]; auto.
      * intros (b & a & Eq & N). destruct a as [|x a] using rev_ind.
        -- apply app_inj_tail in Eq as [_ Eq]. inv Eq. contradiction.
        -- clear IHa. rewrite app_comm_cons, app_assoc in Eq. apply app_inj_tail in Eq as [-> _].
           exists b, a. split; auto. rewrite map_app in N. intros H. apply N. apply in_or_app. auto.
Qed.

Lemma no_filler fillers i : sget i (rev fillers) = None <-> forall f, ~ own_filler fillers i f.
Proof.
  split.
  - intros H f K. apply own_filler_spec in K. congruence.
  - intros H. destruct (sget i (rev fillers)) as [f|] eqn:E; auto. apply own_filler_spec in E. firstorder.
Qed.

Lemma prob_parse_spec o ic fillers input wl :
  match ic_get_intent ic input wl with
  | Err e => prob_parse (prob_new o ic fillers) input wl = Err e
  | Panic => prob_parse (prob_new o ic fillers) input wl = Panic
  | Ok r =>
      match ir_name r with
      | None => prob_parse (prob_new o ic fillers) input wl = Ok (mkIPR r [])
      | Some i =>
          (forall f, own_filler fillers i f ->
             (forall slots, f input = Ok slots ->
                prob_parse (prob_new o ic fillers) input wl = Ok (mkIPR r slots)) /\
             (forall e, f input = Err e -> prob_parse (prob_new o ic fillers) input wl = Err e) /\
             (f input = Panic -> prob_parse (prob_new o ic fillers) input wl = Panic)) /\
          ((forall f, ~ own_filler fillers i f) ->
             prob_parse (prob_new o ic fillers) input wl = Err EUnknownIntent)
      end
  end.
Proof.
  unfold prob_parse. change (pp_classifier (prob_new o ic fillers)) with ic.
  destruct (ic_get_intent ic input wl) as [r|e|]; auto. cbn [bind].
  destruct (ir_name r) as [i|]; auto. rewrite prob_fillers. split.
  - intros f H. apply own_filler_spec in H. rewrite H. cbn [bind ok_or].
    split; [|split]; intros; rewrite H0; reflexivity.
  - intros H. apply no_filler in H. rewrite H. reflexivity.
Qed.

Lemma prob_get_slots_spec o ic fillers input i :
  (forall f, own_filler fillers i f -> prob_get_slots (prob_new o ic fillers) input i = f input) /\
  ((forall f, ~ own_filler fillers i f) -> exists e, prob_get_slots (prob_new o ic fillers) input i = Err e).
Proof.
  unfold prob_get_slots. rewrite prob_fillers. split.
  - intros f H. apply own_filler_spec in H. rewrite H. reflexivity.
  - intros H. apply no_filler in H. rewrite H. simpl. eauto.
Qed.

(** ** Classifiers that ignore the filter *)
Lemma single_class mx c i :
  cl_intents c = [Some i] -> forall input wl, cl_get_intent mx c input wl = Ok (mkIR (Some i) f1).
Proof. intros H input wl. unfold cl_get_intent, get_intents_with_whitelist. rewrite H. reflexivity. Qed.

Lemma no_null_class mx c i j r :
  cl_intents c = Some i :: Some j :: r -> ~ In None r ->
  forall wl, exists s, cl_get_intent mx c [] wl = Ok (mkIR (Some i) s).
Proof.
  intros H N wl. unfold cl_get_intent. rewrite unscored_unfold; auto; [|rewrite H; simpl; lia].
  change (map (fun i : option str => mkIR i (match i with None => f1 | Some _ => f0 end)) (cl_intents c))
    with (map unscored (cl_intents c)).
  rewrite unscored_ok, unscored_sorted, H. cbn [bind].
  assert (E : filter (fun i : option str => match i with None => true | _ => false end) (Some i :: Some j :: r) = []).
  { simpl. clear H. induction r as [|[k|] r IH]; auto; simpl in N.
    - simpl. apply IH. auto.
    - exfalso. auto. }
  rewrite E. exists f0. reflexivity.
Qed.

Lemma fallback_listing mx c input wl l :
  2 <= length (cl_intents c) -> (input = [] \/ cl_featurizer c = None \/ cl_logreg c = None) ->
  get_intents_with_whitelist mx c input wl = Ok l ->
  exists ks, ranks_classes (cl_intents c)
               (map (fun i => match i with None => f1 | Some _ => f0 end) (cl_intents c)) None ks l.
Proof.
  intros L U H. rewrite unscored_unfold in H by auto. apply ranking. rewrite <- H. f_equal.
  clear. induction (cl_intents c) as [|i r IH]; [reflexivity|].
  cbn [map combine filter fst snd]. rewrite IH. destruct i; reflexivity.
Qed.

(** The intents listed without a filter. *)
Lemma all_names classes : forall scores : list f32,
  map ir_name (filter (ikeep None) (map (fun is => mkIR (fst is) (snd is)) (combine classes scores))) =
  firstn (length scores) classes.
Proof.
  induction classes as [|i classes IH]; intros [|s scores]; try reflexivity.
  cbn [combine map fst snd filter]. replace (ikeep None (mkIR i s)) with true by (destruct i; reflexivity).
  cbn [map ir_name length firstn]. rewrite IH. reflexivity.
Qed.
Lemma logreg_count mx lr fs scores : logreg_run mx lr fs = Ok scores -> length scores = scored_classes lr.
Proof.
  intros H. apply logreg_scores in H as [H1 H2]. unfold scored_classes. destruct (Nat.eqb_spec (lr_classes lr) 1) as [E|E].
  - destruct (H2 E) as (p & _ & ->). reflexivity.
  - exact (proj1 (H1 E)).
Qed.
Lemma lists_every_class mx c o fillers input l :
  prob_get_intents (prob_new o (logreg_classifier mx c) fillers) input = Ok l ->
  (forall lr, scores_text c input -> cl_logreg c = Some lr ->
     Permutation (map ir_name l) (firstn (scored_classes lr) (cl_intents c))) /\
  (~ scores_text c input -> cl_intents c <> [] -> Permutation (map ir_name l) (cl_intents c)).
Proof.
  change (prob_get_intents (prob_new o (logreg_classifier mx c) fillers) input) with (get_intents_with_whitelist mx c input None).
  intros H. split.
  - intros lr (N & I & F & _) Elr. destruct (cl_featurizer c) as [t|] eqn:Et; [|congruence].
    unfold get_intents_with_whitelist in H. rewrite Et, Elr in H.
    destruct (Nat.leb_spec (length (cl_intents c)) 1); [lia|]. destruct input as [|ch rest]; [congruence|].
    bind_inv H. bind_inv H. apply sort_desc_ok in H as (P & _ & _). apply Permutation_map with (f := ir_name) in P.
    rewrite <- (logreg_count _ _ _ _ E0). rewrite <- all_names. exact (Permutation_sym P).
  - intros NS Ne. unfold get_intents_with_whitelist in H.
    destruct (Nat.leb_spec (length (cl_intents c)) 1) as [L1|L1].
    + inv H. destruct (cl_intents c) as [|i [|j r]]; [congruence|reflexivity|simpl in L1; lia].
    + assert (U : forall r, sort_desc ir_score (map (fun i => mkIR i (match i with None => f1 | Some _ => f0 end)) (cl_intents c)) = Ok r ->
        Permutation (map ir_name r) (cl_intents c)).
      { intros r S. apply sort_desc_ok in S as (P & _ & _). apply Permutation_map with (f := ir_name) in P.
        rewrite map_map in P. cbn [ir_name] in P. rewrite map_id in P. exact (Permutation_sym P). }
      destruct input as [|ch rest]; [exact (U l H)|]. destruct (cl_featurizer c) as [t|] eqn:Et; [|exact (U l H)].
      destruct (cl_logreg c) as [lr|] eqn:El; [|exact (U l H)].
      exfalso. apply NS. split; [lia|]. split; [discriminate|]. rewrite Et, El. split; discriminate.
Qed.
