(** Lemmas about the names of the resources of an engine. *)
From Coq Require Import String List NArith ZArith Bool Arith Lia Permutation.
From Verif Require Import Base F32 M_Types M_Engine M_Det M_Lookup M_Feat M_Prob M_Features M_Filler
  M_Res M_Fs M_Json M_Load S_Base S_Res S_Load P_Base P_Res P_Load.
Import ListNotations.
Local Open Scope nat_scope.

Lemma last_dot_none s : upto_last_dot s = None <-> ~ In dot s.
Proof.
  induction s as [|c s IH]; simpl; [tauto|].
  destruct (upto_last_dot s).
  - split; [discriminate|]. intros H. exfalso. apply H. right.
    destruct (in_dec N.eq_dec dot s); auto. exfalso. destruct IH as [_ IH]. discriminate IH. exact n.
  - destruct (c =? dot)%N eqn:E.
    + apply N.eqb_eq in E. split; [discriminate|tauto].
    + apply N.eqb_neq in E. split; auto. intros _ [H|H]; [auto|]. apply IH; auto.
Qed.

Lemma last_dot_some s t : upto_last_dot s = Some t <-> exists e, s = t ++ $"." ++ e /\ ~ In dot e.
Proof.
  revert t. induction s as [|c s IH]; intros t; simpl.
  - split; [discriminate|]. intros (e & E & _). destruct t; discriminate.
  - destruct (upto_last_dot s) as [t'|] eqn:U.
    + split.
      * intros H. inv H. destruct (proj1 (IH t') eq_refl) as (e & -> & N). exists e. auto.
      * intros (e & E & N). destruct t as [|c' t]; simpl in E; inv E.
        -- exfalso. assert (upto_last_dot e = None) by (apply last_dot_none; exact N). congruence.
        -- assert (Some t' = Some t) as K by (apply IH; exists e; split; auto). inv K. reflexivity.
    + destruct (c =? dot)%N eqn:E.
      * apply N.eqb_eq in E as ->. split.
        -- intros H. inv H. exists s. split; auto. apply last_dot_none. exact U.
        -- intros (e & E & N). destruct t as [|c' t]; auto. simpl in E. inv E.
           exfalso. apply last_dot_none in U. apply U. apply in_or_app. right. left. reflexivity.
      * apply N.eqb_neq in E. split; [discriminate|]. intros (e & E' & N).
        destruct t; simpl in E'; inv E'; [contradiction|].
        exfalso. apply last_dot_none in U. apply U. apply in_or_app. right. left. reflexivity.
Qed.

Lemma file_stem_iff s t : without_extension s t <-> file_stem s = t.
Proof.
  unfold without_extension, file_stem. split.
  - intros [(N & e & E)|(-> & H)].
    + assert (U : upto_last_dot s = Some t) by (apply last_dot_some; eauto). rewrite U.
      destruct t; [contradiction|reflexivity].
    + destruct (upto_last_dot s) as [[|c t]|] eqn:U; auto.
      apply last_dot_some in U as (e & E & N). discriminate (H _ _ E N).
  - intros <-. destruct (upto_last_dot s) as [[|c t]|] eqn:U.
    + right. split; auto. intros t' e E N.
      assert (upto_last_dot s = Some t') by (apply last_dot_some; eauto). congruence.
    + left. split; [discriminate|]. apply last_dot_some. exact U.
    + right. split; auto. intros t' e E N.
      assert (upto_last_dot s = Some t') by (apply last_dot_some; eauto). congruence.
Qed.

Lemma split_on_none (p : char -> bool) s : (forall a, In a s -> p a = false) -> split_on p s = [s].
Proof.
  induction s as [|c s IH]; intros H; [reflexivity|].
  cbn [split_on]. rewrite (H c) by (left; reflexivity). rewrite IH; [reflexivity|].
  intros a Ha. apply H. right. exact Ha.
Qed.

Lemma simple_components s : simple_name s -> components s = [CName s] /\ is_absolute s = false.
Proof.
  intros (N0 & N1 & N2 & NS). split.
  - unfold components. rewrite split_on_none.
    + simpl. unfold comp_of.
      destruct (str_eqb s []) eqn:E; [apply str_eqb_spec in E; contradiction|].
      destruct (str_eqb s [dot]) eqn:E1; [apply str_eqb_spec in E1; contradiction|].
      destruct (str_eqb s [dot; dot]) eqn:E2; [apply str_eqb_spec in E2; contradiction|]. reflexivity.
    + intros c Hc. apply N.eqb_neq. intros ->. contradiction.
  - destruct s as [|c s]; auto. simpl. apply N.eqb_neq. intros ->. apply NS. left. reflexivity.
Qed.

Lemma resource_path dir n t : simple_name n -> without_extension n t ->
  resolve (with_extension (pjoin dir n) $"txt") = resolve dir ++ [t ++ $".txt"].
Proof.
  intros S W. destruct (simple_components n S) as [C A]. apply file_stem_iff in W.
  unfold pjoin. rewrite A, C. rewrite with_extension_app by discriminate. simpl with_extension.
  rewrite W. apply (resolve_under dir [t ++ $".txt"]).
Qed.

Section Named.
  Context {A : Type} (rd : path -> str -> outcome A) (f : fs) (dir : path).

  Definition step (acc : outcome (list (str * A))) (name : str) : outcome (list (str * A)) :=
    let* m := acc in
    let* c := read_file f (with_extension (pjoin dir name) $"txt") in
    let* a := rd (with_extension (pjoin dir name) $"txt") c in
    Ok (hinsert str_eqb name a m).

  Definition file_value (n : str) (a : A) : Prop :=
    exists c, f (resolve (with_extension (pjoin dir n) $"txt")) = Some (File c) /\
              rd (with_extension (pjoin dir n) $"txt") c = Ok a.

  Lemma steps_not_ok l acc : (forall m, acc <> Ok m) -> forall m, fold_left step l acc <> Ok m.
  Proof.
    revert acc. induction l as [|n l IH]; intros acc H m; simpl; auto.
    apply IH. intros m' E. unfold step in E. bind_inv E. eapply H; eauto.
  Qed.

  Lemma named_steps l : forall m0 m, fold_left step l (Ok m0) = Ok m -> NoDup (hkeys m0) ->
    (forall n a, hget str_eqb n m0 = Some a -> file_value n a) ->
    NoDup (hkeys m) /\ (forall n a, hget str_eqb n m = Some a -> file_value n a) /\
    (forall n, In n l \/ In n (hkeys m0) <-> In n (hkeys m)).
  Proof.
    induction l as [|n l IH]; intros m0 m H ND V; cbn [fold_left] in H.
    - inv H. split; [|split]; auto. intros n. simpl. tauto.
    - destruct (step (Ok m0) n) as [m1| |] eqn:E.
      2,3: exfalso; revert H; apply steps_not_ok; intros; discriminate.
      unfold step in E. cbn [bind] in E. bind_inv E. bind_inv E. inv E.
      unfold read_file in E0. destruct (f _) as [[c|]|] eqn:F; inv E0.
      apply IH in H as (ND' & V' & K).
      + split; [|split]; auto. intros k. rewrite <- K.
        assert (hkeys (hinsert str_eqb n a0 m0) = hkeys m0 /\ In n (hkeys m0) \/
                hkeys (hinsert str_eqb n a0 m0) = hkeys m0 ++ [n]) as [[E0 I]|E0].
        { clear. induction m0 as [|[k v] m0 IH]; simpl; auto.
          destruct (str_eqb n k) eqn:E; simpl.
          - apply str_eqb_spec in E as ->. left. auto.
          - destruct IH as [[IH I]|E']; [left; rewrite IH; auto|right]. f_equal. exact E'. }
        * rewrite E0. split; [intros [[->|?]|?]|intros [?|?]]; simpl; auto.
        * rewrite E0, in_app_iff. simpl. intuition.
      + apply hinsert_NoDup; auto. exact str_eqb_spec.
      + intros k b G. destruct (str_eqb k n) eqn:K.
        * apply str_eqb_spec in K as ->. rewrite hget_insert_eq in G by exact str_eqb_spec. inv G.
          exists a. auto.
        * rewrite hget_insert_neq in G; auto; [exact str_eqb_spec|].
          intros ->. assert (str_eqb n n = true) by (apply str_eqb_spec; reflexivity). congruence.
  Qed.

  Lemma load_named_spec l m ord : load_named rd f dir l = Ok m ->
    forall n, match l with
              | Some names =>
                  (In n names -> exists a, hget str_eqb n (reorder ord m) = Some a /\ file_value n a) /\
                  (~ In n names -> hget str_eqb n (reorder ord m) = None)
              | None => hget str_eqb n (reorder ord m) = None
              end.
  Proof.
    intros H n. unfold load_named in H. destruct l as [l|].
    - apply named_steps in H as (ND & V & K); [|constructor|discriminate].
      rewrite <- (hget_perm str_eqb str_eqb_spec m (reorder ord m) n ND (reorder_perm _ _)).
      specialize (K n). simpl in K. split.
      + intros I. destruct (hget str_eqb n m) as [a|] eqn:G; [eauto|].
        apply (hget_None str_eqb str_eqb_spec) in G. tauto.
      + intros NI. apply (hget_None str_eqb str_eqb_spec). tauto.
    - inv H. replace (reorder ord []) with (@nil (str * A)); auto.
      symmetry. apply Permutation_nil. apply reorder_perm.
  Qed.
End Named.

Section WithLoader.
  Context (x : Ext) (shape : str -> str) (ngrams : list str -> nat -> list str) (mx : Math) (L : Loader)
          (fo : path -> orders) (uo : path -> nat -> HashOrder).
  Notation from_path := (from_path x shape ngrams mx L fo uo).

  Lemma loaded_resources f p en : from_path f p = Ok en ->
    exists l j m, ld_lang L (ds_language (en_dataset en)) = Some l /\
      json_at L f (pjoin (resources_dir L p l) $"metadata.json") j /\ d_resources j = Ok m /\
      (exists st, load_stemmer x f (resources_dir L p l) m = Ok st /\ rs_stemmer (en_resources en) = st) /\
      (exists gs, load_gazetteers x f (resources_dir L p l) m = Ok gs /\
         rs_gazetteers (en_resources en) = reorder (uo (resources_dir L p l) 0) gs) /\
      (exists cs, load_clusterers x uo f (resources_dir L p l) m = Ok cs /\
         rs_clusterers (en_resources en) = reorder (uo (resources_dir L p l) 1) cs) /\
      (exists sw, load_stop_words f (resources_dir L p l) m = Ok sw /\
         rs_stop_words (en_resources en) = reorder (uo (resources_dir L p l) 2) sw).
  Proof.
    unfold M_Load.from_path. intros H. bind_inv H. bind_inv H. bind_inv H. inv H. cbn [en_dataset en_resources].
    unfold resources_of in E0. bind_inv E0. destruct (ld_lang L _) as [l|]; inv E2.
    unfold load_shared_resources in E0. bind_inv E0. apply read_json_ok in E2 as (j & J & D).
    bind_inv E0. bind_inv E0. bind_inv E0. bind_inv E0. bind_inv E0. bind_inv E0. inv E0.
    exists a2, j, a3. cbn. unfold resources_dir.
    repeat (split; [solve [eauto]|]). eauto 8.
  Qed.

  Lemma named_gazetteer f p en : from_path f p = Ok en ->
    exists l j m, ld_lang L (ds_language (en_dataset en)) = Some l /\
      json_at L f (pjoin (resources_dir L p l) $"metadata.json") j /\ d_resources j = Ok m /\
      forall names n t, rm_gazetteers m = Some names -> In n names -> simple_name n -> without_extension n t ->
        exists c g, f (resolve (pjoin (resources_dir L p l) $"gazetteers") ++ [t ++ $".txt"]) = Some (File c) /\
          sget n (rs_gazetteers (en_resources en)) = Some g /\
          forall w, g w = true <-> exists line, is_line c line /\ line <> [] /\ x_hash x line = x_hash x w.
  Proof.
    intros H. apply loaded_resources in H as (l & j & m & HL & J & D & _ & (gs & G & ->) & _).
    exists l, j, m. repeat (split; [assumption|]). intros names n t R I S W.
    unfold load_gazetteers in G. pose proof (load_named_spec _ _ _ _ _ (uo (resources_dir L p l) 0) G n) as Sp.
    rewrite R in Sp. destruct Sp as [Sp _]. destruct (Sp I) as (g & Hg & c & F & V).
    rewrite (resource_path _ _ _ S W) in F. inv V. eexists c, _. split; [exact F|]. split; [exact Hg|].
    intros w. apply gazetteer_iff.
  Qed.

  Lemma named_clusters f p en : from_path f p = Ok en ->
    exists l j m, ld_lang L (ds_language (en_dataset en)) = Some l /\
      json_at L f (pjoin (resources_dir L p l) $"metadata.json") j /\ d_resources j = Ok m /\
      forall names n t, rm_clusters m = Some names -> In n names -> simple_name n -> without_extension n t ->
        exists c g ord cl, f (resolve (pjoin (resources_dir L p l) $"word_clusters") ++ [t ++ $".txt"]) = Some (File c) /\
          sget n (rs_clusterers (en_resources en)) = Some g /\
          clusters_from_reader ord (x_hash x) c = Ok cl /\ forall w, g w = get_cluster (x_hash x) cl w.
  Proof.
    intros H. apply loaded_resources in H as (l & j & m & HL & J & D & _ & _ & (gs & G & ->) & _).
    exists l, j, m. repeat (split; [assumption|]). intros names n t R I S W.
    unfold load_clusterers in G. pose proof (load_named_spec _ _ _ _ _ (uo (resources_dir L p l) 1) G n) as Sp.
    rewrite R in Sp. destruct Sp as [Sp _]. destruct (Sp I) as (g & Hg & c & F & V).
    rewrite (resource_path _ _ _ S W) in F. cbv beta in V. bind_inv V. inv V.
    eexists c, _, _, a. split; [exact F|]. split; [exact Hg|]. split; [exact E|]. reflexivity.
  Qed.

  Lemma named_stop_words f p en : from_path f p = Ok en ->
    exists l j m, ld_lang L (ds_language (en_dataset en)) = Some l /\
      json_at L f (pjoin (resources_dir L p l) $"metadata.json") j /\ d_resources j = Ok m /\
      match rm_stop_words m with
      | None => rs_stop_words (en_resources en) = []
      | Some n => forall t, simple_name n -> without_extension n t ->
          exists c, f (resolve (resources_dir L p l) ++ [t ++ $".txt"]) = Some (File c) /\
            forall w, In w (rs_stop_words (en_resources en)) <-> is_line c w /\ w <> []
      end.
  Proof.
    intros H. apply loaded_resources in H as (l & j & m & HL & J & D & _ & _ & _ & (sw & G & ->)).
    exists l, j, m. repeat (split; [assumption|]). unfold load_stop_words in G.
    destruct (rm_stop_words m) as [n|].
    - intros t S W. bind_inv G. inv G. unfold read_file in E. rewrite (resource_path _ _ _ S W) in E.
      destruct (f _) as [[c|]|]; inv E. exists a. split; auto. intros w. rewrite reorder_In. apply stop_words_iff.
    - inv G. apply Permutation_nil. apply reorder_perm.
  Qed.

  Lemma named_stems f p en : from_path f p = Ok en ->
    exists l j m, ld_lang L (ds_language (en_dataset en)) = Some l /\
      json_at L f (pjoin (resources_dir L p l) $"metadata.json") j /\ d_resources j = Ok m /\
      match rm_stems m with
      | None => rs_stemmer (en_resources en) = None
      | Some n => forall t, simple_name n -> without_extension n t ->
          exists c s st, f (resolve (pjoin (resources_dir L p l) $"stemming") ++ [t ++ $".txt"]) = Some (File c) /\
            rs_stemmer (en_resources en) = Some s /\
            stemmer_from_reader (x_hash x) c = Ok st /\ forall w, s w = stem x st w
      end.
  Proof.
    intros H. apply loaded_resources in H as (l & j & m & HL & J & D & (st & G & E0) & _).
    exists l, j, m. repeat (split; [assumption|]). unfold load_stemmer in G.
    destruct (rm_stems m) as [n|]; [|inv G; auto].
    intros t S W. bind_inv G. bind_inv G. inv G. unfold read_file in E. rewrite (resource_path _ _ _ S W) in E.
    destruct (f _) as [[c|]|]; inv E. exists a, (stem x a0), a0. auto.
  Qed.

  (** Two names that only differ by what follows the last dot. *)
  Lemma same_stem_same_gazetteer f p en l j m names n n' t :
    from_path f p = Ok en -> ld_lang L (ds_language (en_dataset en)) = Some l ->
    json_at L f (pjoin (resources_dir L p l) $"metadata.json") j -> d_resources j = Ok m ->
    rm_gazetteers m = Some names -> In n names -> In n' names -> simple_name n -> simple_name n' ->
    without_extension n t -> without_extension n' t ->
    exists g g', sget n (rs_gazetteers (en_resources en)) = Some g /\
      sget n' (rs_gazetteers (en_resources en)) = Some g' /\ forall w, g w = g' w.
  Proof.
    intros H HL J D R I I' S S' W W'.
    destruct (named_gazetteer _ _ _ H) as (l1 & j1 & m1 & HL1 & J1 & D1 & G).
    assert (l1 = l) as -> by congruence.
    assert (j1 = j) as ->.
    { destruct J as (c & F & E), J1 as (c1 & F1 & E1). congruence. }
    assert (m1 = m) as -> by congruence.
    destruct (G names n t R I S W) as (c & g & F & Hg & Sg).
    destruct (G names n' t R I' S' W') as (c' & g' & F' & Hg' & Sg').
    assert (c' = c) as -> by congruence. exists g, g'. split; [exact Hg|]. split; [exact Hg'|].
    intros w. specialize (Sg w). specialize (Sg' w). destruct (g w), (g' w); auto; exfalso; intuition discriminate.
  Qed.
End WithLoader.
