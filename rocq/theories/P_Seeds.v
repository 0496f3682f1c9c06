(** Proofs for C82: what loading gives does not depend on the order of hash tables. *)
From Coq Require Import String List NArith ZArith Bool Arith Lia Permutation FunctionalExtensionality.
From Verif Require Import Base Sorting F32 M_Types M_Utils M_Engine M_Det M_Lookup M_Feat M_Prob M_Features M_Crf M_Filler M_Cache M_Res M_Fs M_Json M_Load
  S_Load S_Made S_Seeds P_Base P_Feat P_Rules P_Clusters.
Import ListNotations.
Local Open Scope list_scope.
Local Open Scope nat_scope.

(** ** Both succeed, with related values, or neither does *)
Definition both {A B} (R : A -> B -> Prop) (o : outcome A) (o' : outcome B) : Prop :=
  match o, o' with
  | Ok a, Ok b => R a b
  | Ok _, _ => False
  | _, Ok _ => False
  | _, _ => True
  end.

Lemma both_bind {A B C D} (R : A -> B -> Prop) (S : C -> D -> Prop) m m' k k' :
  both R m m' -> (forall a b, m = Ok a -> m' = Ok b -> R a b -> both S (k a) (k' b)) -> both S (bind m k) (bind m' k').
Proof. intros H K. destruct m, m'; simpl in *; auto; contradiction. Qed.
Lemma both_impl {A B} (R S : A -> B -> Prop) m m' : (forall a b, R a b -> S a b) -> both R m m' -> both S m m'.
Proof. intros H K. destruct m, m'; simpl in *; auto. Qed.
Lemma both_refl {A} (R : A -> A -> Prop) m : (forall a, R a a) -> both R m m.
Proof. intros H. destruct m; simpl; auto. Qed.
Lemma both_eq {A} (m m' : outcome A) : m = m' -> both eq m m'.
Proof. intros <-. apply both_refl. auto. Qed.
Lemma both_intro {A B} (R : A -> B -> Prop) m m' :
  (forall a, m = Ok a -> exists b, m' = Ok b /\ R a b) -> (forall b, m' = Ok b -> exists a, m = Ok a /\ R a b) -> both R m m'.
Proof.
  intros H K. destruct m as [a| |].
  - destruct (H a eq_refl) as (b & -> & Rab). exact Rab.
  - destruct m'; simpl; auto. destruct (K _ eq_refl) as (? & E & _). discriminate.
  - destruct m'; simpl; auto. destruct (K _ eq_refl) as (? & E & _). discriminate.
Qed.
Lemma both_mapM {A B C D} (R : C -> D -> Prop) (g : A -> outcome C) (g' : B -> outcome D) l l' :
  Forall2 (fun a b => both R (g a) (g' b)) l l' -> both (Forall2 R) (mapM g l) (mapM g' l').
Proof.
  induction 1; simpl; [constructor|]. eapply both_bind; [eassumption|]. intros c d _ _ Rcd.
  eapply both_bind; [eassumption|]. intros cs ds _ _ Rs. simpl. constructor; auto.
Qed.
Lemma Forall2_same {A} (R : A -> A -> Prop) l : (forall a, In a l -> R a a) -> Forall2 R l l.
Proof. induction l; constructor; [apply H; left; auto|apply IHl; intros; apply H; right; auto]. Qed.
Lemma both_mapM_same {A C D} (R : C -> D -> Prop) (g : A -> outcome C) (g' : A -> outcome D) l :
  (forall a, In a l -> both R (g a) (g' a)) -> both (Forall2 R) (mapM g l) (mapM g' l).
Proof. intros H. apply both_mapM. induction l; constructor; [apply H; left; auto|apply IHl; intros; apply H; right; auto]. Qed.
Lemma both_mapM_perm {A B} (g : A -> outcome B) l l' : Permutation l l' -> both (@Permutation B) (mapM g l) (mapM g l').
Proof.
  intros P. apply both_intro.
  - intros r E. destruct (Permutation_mapM _ _ _ _ P E) as (r' & E' & P'). eauto.
  - intros r E. destruct (Permutation_mapM _ _ _ _ (Permutation_sym P) E) as (r' & E' & P'). eauto using Permutation_sym.
Qed.
Lemma Forall2_eq {A} (l l' : list A) : Forall2 eq l l' -> l = l'.
Proof. induction 1; congruence. Qed.
Lemma both_ok_or {A B} (R : A -> B -> Prop) e e' o o' :
  match o, o' with Some a, Some b => R a b | None, None => True | _, _ => False end -> both R (ok_or e o) (ok_or e' o').
Proof. destruct o, o'; simpl; auto. Qed.

(** ** Two maps with related values for the same keys *)
Section Maps.
  Context {K : Type} (eqb : K -> K -> bool) (eqb_spec : forall a b, eqb a b = true <-> a = b).

  Definition entry_rel {V W} (R : V -> W -> Prop) (a : K * V) (b : K * W) : Prop := fst a = fst b /\ R (snd a) (snd b).
  Definition same_map {V W} (R : V -> W -> Prop) (m : list (K * V)) (m' : list (K * W)) : Prop :=
    NoDup (hkeys m) /\ exists m1, Forall2 (entry_rel R) m m1 /\ Permutation m1 m'.

  Lemma entries_keys {V W} (R : V -> W -> Prop) m m' : Forall2 (entry_rel R) m m' -> hkeys m = hkeys m'.
  Proof. induction 1 as [|a b l l' [E _] _ IH]; simpl; [auto|]. unfold hkeys in *. congruence. Qed.
  Lemma same_map_NoDup {V W} (R : V -> W -> Prop) m m' : same_map R m m' -> NoDup (hkeys m').
  Proof.
    intros (N & m1 & F & P). eapply Permutation_NoDup; [apply Permutation_map; exact P|].
    change (NoDup (hkeys m1)). rewrite <- (entries_keys _ _ _ F). exact N.
  Qed.
  Lemma same_map_keys {V W} (R : V -> W -> Prop) m m' : same_map R m m' -> Permutation (hkeys m) (hkeys m').
  Proof. intros (N & m1 & F & P). rewrite (entries_keys _ _ _ F). apply Permutation_map. exact P. Qed.
  Lemma same_map_length {V W} (R : V -> W -> Prop) m m' : same_map R m m' -> length m = length m'.
  Proof. intros H. apply same_map_keys, Permutation_length in H. unfold hkeys in H. rewrite !map_length in H. exact H. Qed.
  Lemma entries_get {V W} (R : V -> W -> Prop) m m' k : Forall2 (entry_rel R) m m' ->
    match hget eqb k m, hget eqb k m' with Some a, Some b => R a b | None, None => True | _, _ => False end.
  Proof.
    induction 1 as [|[k1 v] [k2 w] l l' [E Rv] _ IH]; simpl in *; auto. subst k2. destruct (eqb k k1); auto.
  Qed.
  Lemma same_map_get {V W} (R : V -> W -> Prop) m m' k : same_map R m m' ->
    match hget eqb k m, hget eqb k m' with Some a, Some b => R a b | None, None => True | _, _ => False end.
  Proof.
    intros H. pose proof (same_map_NoDup _ _ _ H) as N'. destruct H as (N & m1 & F & P).
    rewrite <- (hget_perm _ eqb_spec m1 m' k); [apply entries_get; exact F| |exact P].
    rewrite <- (entries_keys _ _ _ F). exact N.
  Qed.
  Lemma same_map_get_eq {V} (m m' : list (K * V)) k : same_map eq m m' -> hget eqb k m = hget eqb k m'.
  Proof. intros H. pose proof (same_map_get eq m m' k H) as G. destruct (hget eqb k m), (hget eqb k m'); congruence || contradiction. Qed.
  Lemma same_map_perm {V} (m m' : list (K * V)) : same_map eq m m' -> Permutation m m'.
  Proof.
    intros (N & m1 & F & P). replace m with m1; auto. clear P N. induction F as [|[k v] [k' v'] l l' [E1 E2] _ IH]; auto.
    simpl in *. congruence.
  Qed.
  Lemma perm_same_map {V} (m m' : list (K * V)) : NoDup (hkeys m) -> Permutation m m' -> same_map eq m m'.
  Proof. intros N P. split; auto. exists m. split; auto. apply Forall2_same. intros; split; auto. Qed.
  Lemma same_map_reorder {V W} (R : V -> W -> Prop) m m' o o' : same_map R m m' -> same_map R (reorder o m) (reorder o' m').
  Proof.
    intros (N & m1 & F & P). split.
    - eapply Permutation_NoDup; [apply Permutation_map, reorder_perm|exact N].
    - destruct (Permutation_Forall2 (reorder_perm o m) F) as (m2 & P2 & F2). exists m2. split; auto.
      eapply perm_trans; [apply Permutation_sym; exact P2|]. eapply perm_trans; [exact P|]. apply reorder_perm.
  Qed.
  Lemma same_map_reorders {V} (m : list (K * V)) o o' : NoDup (hkeys m) -> same_map eq (reorder o m) (reorder o' m).
  Proof. intros N. apply same_map_reorder. apply perm_same_map; auto. Qed.
  Lemma same_map_impl {V W} (R S : V -> W -> Prop) m m' : (forall a b, R a b -> S a b) -> same_map R m m' -> same_map S m m'.
  Proof.
    intros H (N & m1 & F & P). split; auto. exists m1. split; auto.
    clear N P. induction F as [|a b l l' [E Rv]]; constructor; auto. split; auto.
  Qed.
  Lemma same_map_values {V W V' W'} (R : V -> W -> Prop) (S : V' -> W' -> Prop) (g : V -> V') (g' : W -> W') m m' :
    (forall a b, R a b -> S (g a) (g' b)) -> same_map R m m' ->
    same_map S (map (fun kv => (fst kv, g (snd kv))) m) (map (fun kv => (fst kv, g' (snd kv))) m').
  Proof.
    intros H (N & m1 & F & P). split.
    - unfold hkeys. rewrite map_map. exact N.
    - exists (map (fun kv => (fst kv, g' (snd kv))) m1). split; [|apply Permutation_map; exact P].
      clear N P. induction F as [|a b l l' [E Rv]]; simpl; constructor; auto. split; simpl; auto.
  Qed.
  Lemma same_map_sym {V W} (R : V -> W -> Prop) m m' : same_map R m m' -> same_map (fun b a => R a b) m' m.
  Proof.
    intros H. split; [exact (same_map_NoDup _ _ _ H)|]. destruct H as (N & m1 & F & P).
    assert (F' : Forall2 (entry_rel (fun b a => R a b)) m1 m).
    { clear N P. induction F as [|a b l l' [E Rv]]; constructor; auto. split; auto. }
    destruct (Permutation_Forall2 P F') as (m2 & P2 & F2). exists m2. split; auto. apply Permutation_sym. exact P2.
  Qed.

  Lemma insert_entries {V W} (R : V -> W -> Prop) k a b m m' : R a b -> Forall2 (entry_rel R) m m' ->
    Forall2 (entry_rel R) (hinsert eqb k a m) (hinsert eqb k b m').
  Proof.
    intros Rab. induction 1 as [|[k1 v] [k2 w] l l' [E Rv] F IH]; simpl in *.
    - constructor; [split; auto|constructor].
    - subst k2. destruct (eqb k k1); constructor; auto; split; auto.
  Qed.
  Lemma collect_entries {V W} (R : V -> W -> Prop) l l' : Forall2 (entry_rel R) l l' ->
    Forall2 (entry_rel R) (hcollect eqb l) (hcollect eqb l').
  Proof.
    intros F. unfold hcollect.
    assert (G : forall m m', Forall2 (entry_rel R) m m' -> Forall2 (entry_rel R)
      (fold_left (fun acc kv => hinsert eqb (fst kv) (snd kv) acc) l m)
      (fold_left (fun acc kv => hinsert eqb (fst kv) (snd kv) acc) l' m')).
    { induction F as [|a b l l' [E Rv] F IH]; simpl; auto. intros m m' Fm. apply IH. rewrite <- E. apply insert_entries; auto. }
    apply G. constructor.
  Qed.
  Lemma collect_same {V W} (R : V -> W -> Prop) o o' l l' : Forall2 (entry_rel R) l l' ->
    same_map R (reorder o (hcollect eqb l)) (reorder o' (hcollect eqb l')).
  Proof.
    intros F. apply same_map_reorder. split; [apply hcollect_NoDup, eqb_spec|].
    exists (hcollect eqb l'). split; [apply collect_entries; exact F|auto].
  Qed.

  (** Reading a map. *)
  Lemma both_map {V W} (R : V -> W -> Prop) (key : str -> option K) o o' (d : str -> decoder V) (d' : str -> decoder W) j :
    (forall k v, both R (d k v) (d' k v)) -> both (same_map R) (d_map eqb key o d j) (d_map eqb key o' d' j).
  Proof.
    intros H. destruct j; simpl; auto. eapply both_bind.
    - apply both_mapM_same with (R := entry_rel R). intros [k v] _. simpl.
      destruct (key k); simpl; auto. eapply both_bind; [apply H|]. intros a b _ _ Rab. simpl. split; auto.
    - intros a b _ _ F. simpl. apply collect_same. exact F.
  Qed.
End Maps.

Ltac both_same := eapply both_bind; [apply both_eq; reflexivity|intros ? ? _ _ <-].
Ltac both_fields := both_same; match goal with fs : list found |- _ => repeat (destruct fs as [|? fs]; try exact I) end.

Lemma both_required {A B} (R : A -> B -> Prop) (d : decoder A) (d' : decoder B) v :
  (forall j, both R (d j) (d' j)) -> both R (required d v) (required d' v).
Proof. intros H. destruct v; simpl; auto. Qed.
Lemma both_defaulted {A B} (R : A -> B -> Prop) a b (d : decoder A) (d' : decoder B) v :
  R a b -> (forall j, both R (d j) (d' j)) -> both R (defaulted a d v) (defaulted b d' v).
Proof. intros Rab H. destruct v; simpl; auto. Qed.

(** ** Documents *)
Notation smap R := (same_map (K := str) R) (only parsing).

Definition same_dataset (d d' : DatasetMetadata) : Prop :=
  ds_language d = ds_language d' /\ same_map eq (ds_entities d) (ds_entities d') /\
  same_map (same_map eq) (ds_slot_name_mappings d) (ds_slot_name_mappings d').
Definition same_engine_model (m m' : EngineModel) : Prop :=
  same_dataset (em_dataset m) (em_dataset m') /\ em_parsers m = em_parsers m' /\ em_builtin m = em_builtin m' /\ em_custom m = em_custom m'.
Definition same_det_model (m m' : DetModel) : Prop :=
  dm_language m = dm_language m' /\ same_map eq (dm_patterns m) (dm_patterns m') /\ same_map eq (dm_groups m) (dm_groups m') /\
  same_map (same_map eq) (dm_slots m) (dm_slots m') /\ same_map eq (dm_stop_whitelist m) (dm_stop_whitelist m') /\
  dm_ignore_stop_words m = dm_ignore_stop_words m'.
Definition same_lookup_model (m m' : LookupModel) : Prop :=
  lm_language m = lm_language m' /\ lm_slots_names m = lm_slots_names m' /\ lm_intents_names m = lm_intents_names m' /\
  same_map eq (lm_map m) (lm_map m') /\ lm_scopes m = lm_scopes m' /\ same_map eq (lm_stop_whitelist m) (lm_stop_whitelist m') /\
  lm_ignore_stop_words m = lm_ignore_stop_words m'.
Definition same_tfidf_model (m m' : TfidfModel) : Prop :=
  tm_language m = tm_language m' /\ tm_scope m = tm_scope m' /\ tm_idf m = tm_idf m' /\ same_map eq (tm_vocab m) (tm_vocab m') /\
  tm_stemming m = tm_stemming m' /\ tm_clusters m = tm_clusters m'.
Definition same_cooc_model (m m' : CoocModel) : Prop :=
  cm_language m = cm_language m' /\ cm_scope m = cm_scope m' /\ same_map eq (cm_pairs m) (cm_pairs m') /\
  cm_window m = cm_window m' /\ cm_filter_stop m = cm_filter_stop m' /\ cm_keep_order m = cm_keep_order m' /\ cm_unknown m = cm_unknown m'.
Definition same_factory (a b : FeatureFactory) : Prop :=
  ff_name a = ff_name b /\ ff_offsets a = ff_offsets b /\ same_map eq (ff_args a) (ff_args b).
Definition same_filler_model (m m' : SlotFillerModel) : Prop :=
  sm_language m = sm_language m' /\ same_map eq (sm_mapping m) (sm_mapping m') /\ sm_crf_file m = sm_crf_file m' /\
  sm_scheme m = sm_scheme m' /\ Forall2 same_factory (sm_factories m) (sm_factories m').

Lemma both_smap {V} o o' (d : decoder V) j : both (same_map eq) (d_smap o d j) (d_smap o' d j).
Proof. apply both_map; [exact str_eqb_spec|]. intros. apply both_eq. reflexivity. Qed.
Lemma both_smap2 {V} (key : str -> option str) o o' (oo oo' : str -> HashOrder) (d : decoder V) j :
  both (same_map (same_map eq)) (d_map str_eqb key o (fun k => d_smap (oo k) d) j)
                                (d_map str_eqb key o' (fun k => d_smap (oo' k) d) j).
Proof. apply both_map; [exact str_eqb_spec|]. intros. apply both_smap. Qed.

Lemma both_dataset o o' j : both same_dataset (d_dataset o j) (d_dataset o' j).
Proof.
  unfold d_dataset. both_fields. both_same.
  eapply both_bind; [apply both_required; intros; apply both_smap|]. intros e e' _ _ E.
  eapply both_bind; [apply both_required; intros; apply both_smap2|]. intros m m' _ _ M.
  simpl. repeat split; simpl; auto; try apply E; try apply M.
Qed.
Lemma both_engine o o' j : both same_engine_model (d_engine o j) (d_engine o' j).
Proof.
  unfold d_engine. both_fields. eapply both_bind; [apply both_required; intros; apply both_dataset|]. intros d d' _ _ D.
  do 5 both_same. simpl. repeat split; simpl; auto; apply D.
Qed.
Lemma both_det o o' j : both same_det_model (d_deterministic o j) (d_deterministic o' j).
Proof.
  unfold d_deterministic. both_fields. both_same.
  eapply both_bind; [apply both_required; intros; apply both_smap|]. intros p p' _ _ P.
  eapply both_bind; [apply both_required; intros; apply both_smap|]. intros g g' _ _ G.
  eapply both_bind; [apply both_required; intros; apply both_smap2|]. intros s s' _ _ S.
  eapply both_bind; [apply both_defaulted; [|intros; apply both_smap]|].
  { split; [constructor|]. exists []. auto. }
  intros w w' _ _ W. both_same. simpl. repeat split; simpl; auto; try apply P; try apply G; try apply S; apply W.
Qed.
Lemma both_lookup o o' j : both same_lookup_model (d_lookup o j) (d_lookup o' j).
Proof.
  unfold d_lookup. both_fields. do 3 both_same.
  eapply both_bind; [apply both_required; intros; apply both_map with (R := eq)|].
  { intros; apply Z.eqb_eq. } { intros. apply both_eq. reflexivity. }
  intros m m' _ _ M. both_same.
  eapply both_bind; [apply both_required; intros; apply both_smap|]. intros w w' _ _ W. both_same.
  simpl. repeat split; simpl; auto; try apply M; apply W.
Qed.
Lemma both_tfidf f32_of o o' j : both same_tfidf_model (d_tfidf f32_of o j) (d_tfidf f32_of o' j).
Proof.
  unfold d_tfidf. both_fields. do 2 both_same.
  eapply both_bind with (R := fun a b => fst a = fst b /\ same_map eq (snd a) (snd b)).
  { apply both_required. intros k. unfold d_sklearn. both_fields. both_same.
    eapply both_bind; [apply both_required; intros; apply both_smap|]. intros v v' _ _ V. simpl. auto. }
  intros v v' _ _ (V1 & V2). both_same. simpl. repeat split; simpl; auto; apply V2.
Qed.
Lemma both_cooc o o' j : both same_cooc_model (d_cooccurrence o j) (d_cooccurrence o' j).
Proof.
  unfold d_cooccurrence. both_fields. do 2 both_same.
  eapply both_bind; [apply both_required; intros; apply both_map with (R := eq)|].
  { intros; apply Nat.eqb_eq. } { intros. apply both_eq. reflexivity. }
  intros m m' _ _ M. both_same. destruct a1 as (((w & fs) & k) & u). simpl. repeat split; simpl; auto; apply M.
Qed.
Lemma both_filler o o' j : both same_filler_model (d_filler o j) (d_filler o' j).
Proof.
  unfold d_filler. both_fields. do 2 both_same.
  eapply both_bind; [apply both_required; intros; apply both_smap|]. intros m m' _ _ M. both_same.
  eapply both_bind with (R := fun a b => fst a = fst b /\ Forall2 same_factory (snd a) (snd b)).
  { apply both_required. intros k. unfold d_filler_config. both_fields. both_same.
    eapply both_bind; [apply both_required; intros q|].
    - unfold d_vec. destruct q; try exact I. apply both_mapM_same with (R := same_factory). intros q _. unfold d_factory. both_fields. do 2 both_same.
      eapply both_bind; [apply both_required; intros; apply both_smap|]. intros g g' _ _ G. simpl. repeat split; simpl; auto; apply G.
    - intros g g' _ _ G. simpl. auto. }
  intros c c' _ _ (C1 & C2). simpl. repeat split; simpl; auto; apply M.
Qed.

(** ** Resources *)
Section Clusters.
  Context (o o' : HashOrder) (hash : str -> Z).
  Definition same_clusters (a b : Clusters) : Prop :=
    match a, b with
    | CNum m, CNum m' => m = m' /\ NoDup (hkeys m)
    | CStr m, CStr m' => forall h, hget Z.eqb h m = hget Z.eqb h m'
    | _, _ => False
    end.
  Lemma same_clusters_get a b : same_clusters a b -> get_cluster hash a = get_cluster hash b.
  Proof.
    intros H. apply functional_extensionality. intros w. destruct a, b; simpl in *; try contradiction.
    - destruct H as [<- _]. reflexivity.
    - apply H.
  Qed.
  Lemma both_record width a b row : same_clusters a b ->
    both same_clusters (clusters_of_record o hash width a row) (clusters_of_record o' hash width b row).
  Proof.
    intros H. unfold clusters_of_record. destruct (negb (length row =? width)); [exact I|]. both_same. both_same.
    destruct a, b; simpl in H; try contradiction.
    - destruct H as [<- N]. destruct (u16_from_str _) eqn:E; simpl.
      + split; auto. apply hinsert_NoDup; [exact Z.eqb_eq|exact N].
      + intros h. destruct (Z.eq_dec h (hash a0)) as [->|Hne].
        * rewrite !hget_insert_eq by exact Z.eqb_eq. reflexivity.
        * rewrite !hget_insert_neq by (try exact Z.eqb_eq; congruence). rewrite !moved_get by exact N. reflexivity.
    - simpl. intros h. destruct (Z.eq_dec h (hash a0)) as [->|Hne].
      + rewrite !hget_insert_eq by exact Z.eqb_eq. reflexivity.
      + rewrite !hget_insert_neq by (try exact Z.eqb_eq; congruence). apply H.
  Qed.
  Lemma both_clusters file : both same_clusters (clusters_from_reader o hash file) (clusters_from_reader o' hash file).
  Proof.
    unfold clusters_from_reader, clusters_of_records. generalize (match csv_records tab file with r :: _ => length r | [] => 0 end).
    intros w. assert (H : both same_clusters (Ok (CNum [])) (Ok (CNum []))) by (simpl; split; [auto|constructor]).
    revert H. generalize (Ok (CNum []) : outcome Clusters) at 1 3. generalize (Ok (CNum []) : outcome Clusters).
    induction (csv_records tab file) as [|row rows IH]; intros a b H; [exact H|]. cbn [fold_left]. apply IH.
    eapply both_bind; [exact H|]. intros c d _ _ Hc. apply both_record. exact Hc.
  Qed.
End Clusters.

Definition same_res (r r' : Resources) : Prop :=
  rs_builtin r = rs_builtin r' /\ rs_custom r = rs_custom r' /\ rs_stemmer r = rs_stemmer r' /\
  same_map eq (rs_gazetteers r) (rs_gazetteers r') /\ same_map eq (rs_clusterers r) (rs_clusterers r') /\
  Permutation (rs_stop_words r) (rs_stop_words r').

Section Load.
  Context (x : Ext) (shape : str -> str) (ngrams : list str -> nat -> list str) (mx : Math) (L : Loader)
          (fo fo' : path -> orders) (uo uo' : path -> nat -> HashOrder) (f : fs).

  Lemma both_read {A B} (R : A -> B -> Prop) p (d : decoder A) (d' : decoder B) :
    (forall j, json_at L f p j -> both R (d j) (d' j)) -> both R (read_json L f p d) (read_json L f p d').
  Proof.
    intros H. unfold read_json. destruct (read_file f p) as [c| |] eqn:E; try exact I. cbn [bind].
    destruct (ld_json L c) as [j|] eqn:J; try exact I. cbn [ok_or bind]. apply H. exists c. split; auto.
    unfold read_file in E. destruct (f (resolve p)) as [[|]|]; congruence.
  Qed.

  Lemma both_named {A} (read read' : path -> str -> outcome A) dir names :
    (forall q c, both eq (read q c) (read' q c)) ->
    both (fun m m' => m = m' /\ NoDup (hkeys m)) (load_named read f dir names) (load_named read' f dir names).
  Proof.
    intros H. unfold load_named. destruct names as [l|]; [|simpl; split; [auto|constructor]].
    assert (G : both (fun m m' => m = m' /\ NoDup (hkeys m)) (Ok ([] : list (str * A))) (Ok [])) by (simpl; split; [auto|constructor]).
    revert G. generalize (Ok [] : outcome (list (str * A))) at 1 3. generalize (Ok [] : outcome (list (str * A))).
    induction l as [|n l IH]; intros a b G; [exact G|]. cbn [fold_left]. apply IH.
    eapply both_bind; [exact G|]. intros m m' _ _ [<- N]. both_same.
    eapply both_bind; [apply H|]. intros v v' _ _ <-. simpl. split; auto. apply hinsert_NoDup; [exact str_eqb_spec|exact N].
  Qed.

  Lemma both_shared dir b c :
    both same_res (load_shared_resources x L uo f dir b c) (load_shared_resources x L uo' f dir b c).
  Proof.
    unfold load_shared_resources. both_same. both_same.
    eapply both_bind; [apply both_named; intros; apply both_eq; reflexivity|]. intros gs gs' _ _ [<- Ng].
    eapply both_bind; [apply both_named|].
    { intros q c0. eapply both_bind; [apply both_clusters|]. intros cl cl' _ _ C. simpl. apply same_clusters_get. exact C. }
    intros cs cs' _ _ [<- Nc]. do 3 both_same. simpl.
    assert (PG := fun A (l : list A) p i => perm_trans (Permutation_sym (reorder_perm (uo p i) l)) (reorder_perm (uo' p i) l)).
    repeat (split; [reflexivity|]). split; [apply same_map_reorders; exact Ng|]. split; [apply same_map_reorders; exact Nc|].
    apply PG.
  Qed.

  Lemma both_resources p m m' : same_engine_model m m' -> both same_res (resources_of x L uo f p m) (resources_of x L uo' f p m').
  Proof.
    intros ((E1 & _) & _ & E2 & E3). unfold resources_of. rewrite E1, E2, E3. both_same. apply both_shared.
  Qed.

  (** ** Classifier *)
  Lemma sget_res {V} k (m m' : list (str * V)) : same_map eq m m' -> sget k m = sget k m'.
  Proof. apply same_map_get_eq. exact str_eqb_spec. Qed.
  Lemma smem_perm w l l' : Permutation l l' -> smem w l = smem w l'.
  Proof.
    intros P. destruct (smem w l) eqn:E; symmetry.
    - apply smem_spec. apply smem_spec in E. eapply Permutation_in; eauto.
    - apply smem_false. apply smem_false in E. intros H. apply E. eapply Permutation_in; [apply Permutation_sym|]; eauto.
  Qed.

  Definition same_tfidf (t t' : Tfidf) : Prop :=
    tv_scope t = tv_scope t' /\ same_map eq (tv_vocab t) (tv_vocab t') /\ tv_idf t = tv_idf t' /\ tv_clusterer t = tv_clusterer t' /\
    tv_stemmer t = tv_stemmer t' /\ tv_lang t = tv_lang t' /\ same_res (tv_res t) (tv_res t').
  Lemma both_tfidf_new r r' m m' : same_res r r' -> same_tfidf_model m m' ->
    both same_tfidf (tfidf_new x (ld_lang L) m r) (tfidf_new x (ld_lang L) m' r').
  Proof.
    intros R (E1 & E2 & E3 & E4 & E5 & E6). pose proof R as (_ & _ & R3 & _ & R5 & _). unfold tfidf_new. rewrite E1, E2, E5, E6, R3. both_same.
    eapply both_bind with (R := eq).
    { destruct (tm_clusters m'); [rewrite (sget_res _ _ _ R5)|]; apply both_eq; reflexivity. }
    intros c c' _ _ <-. do 2 both_same. simpl. repeat (split; [simpl; auto; fail|]). exact R.
  Qed.
  Lemma vocabulary_same (v v' : list (str * nat)) : Permutation v v' -> vocabulary_size v = vocabulary_size v'.
  Proof.
    intros P. unfold vocabulary_size. destruct v as [|a v]; [apply Permutation_nil in P; subst; reflexivity|].
    destruct v' as [|b v']; [apply Permutation_sym, Permutation_nil in P; discriminate|]. do 2 f_equal.
    assert (G : forall l l' : list nat, Permutation l l' -> list_max l = list_max l').
    { intros l l' Q. induction Q; simpl; auto; lia. }
    apply G. apply Permutation_map. exact P.
  Qed.
  Lemma tfidf_same o o' t t' s : same_tfidf t t' -> tfidf_transform x ngrams o t s = tfidf_transform x ngrams o' t' s.
  Proof.
    intros (E1 & E2 & E3 & E4 & E5 & E6 & (R1 & R2 & _)). rewrite (tfidf_order x ngrams o o'). unfold tfidf_transform.
    assert (W : tfidf_words x ngrams t s = tfidf_words x ngrams t' s).
    { unfold tfidf_words. rewrite E1, E4, E5, E6, R1, R2. reflexivity. }
    rewrite W. destruct (tfidf_words x ngrams t' s); auto. cbn [bind].
    rewrite (vocabulary_same _ _ (same_map_perm _ _ E2)). destruct (vocabulary_size (tv_vocab t')); auto. cbn [bind].
    assert (I : word_indices (tv_vocab t) a = word_indices (tv_vocab t') a).
    { clear - E2. unfold word_indices. induction a as [|w a IH]; simpl; auto. rewrite (sget_res _ _ _ E2). destruct (sget w (tv_vocab t')); congruence. }
    rewrite I, E3. reflexivity.
  Qed.

  Definition same_cooc (c c' : Cooc) : Prop :=
    cv_lang c = cv_lang c' /\ cv_scope c = cv_scope c' /\ same_map eq (cv_pairs c) (cv_pairs c') /\
    cv_filter_stop c = cv_filter_stop c' /\ cv_window c = cv_window c' /\ cv_keep_order c = cv_keep_order c' /\
    cv_unknown c = cv_unknown c' /\ same_res (cv_res c) (cv_res c').
  Lemma both_cooc_new r r' m m' : same_res r r' -> same_cooc_model m m' -> NoDup (map snd (cm_pairs m)) ->
    both (fun c c' => same_cooc c c' /\ cooc_new x (ld_lang L) m r = Ok c) (cooc_new x (ld_lang L) m r) (cooc_new x (ld_lang L) m' r').
  Proof.
    intros R (E1 & E2 & E3 & E4 & E5 & E6 & E7) N.
    assert (K : both same_cooc (cooc_new x (ld_lang L) m r) (cooc_new x (ld_lang L) m' r')).
    { unfold cooc_new. rewrite E1, E2. both_same. both_same. simpl.
      assert (P : Permutation (map (fun ip => (snd ip, fst ip)) (cm_pairs m)) (map (fun ip => (snd ip, fst ip)) (cm_pairs m')))
        by (apply Permutation_map, same_map_perm; exact E3).
      assert (N1 : NoDup (hkeys (map (fun ip : nat * (str * str) => (snd ip, fst ip)) (cm_pairs m))))
        by (unfold hkeys; rewrite map_map; exact N).
      unfold same_cooc. simpl. rewrite !hcollect_NoDup_id; try exact pair_eqb_spec; auto.
      - repeat (split; [auto; fail|]). split; [apply perm_same_map; auto|]. repeat (split; [auto; fail|]). exact R.
      - eapply Permutation_NoDup; [apply Permutation_map; exact P|exact N1]. }
    destruct (cooc_new x (ld_lang L) m r), (cooc_new x (ld_lang L) m' r'); simpl in *; auto.
  Qed.
  Lemma cooc_same o o' m r c c' s : cooc_new x (ld_lang L) m r = Ok c -> same_cooc c c' ->
    cooc_transform x o c s = cooc_transform x o' c' s.
  Proof.
    intros H (E1 & E2 & E3 & E4 & E5 & E6 & E7 & (R1 & R2 & _ & _ & _ & R6)). rewrite (cooc_order x (ld_lang L) o o' m r c s H).
    unfold cooc_transform.
    assert (T : cooc_tokens x c s = cooc_tokens x c' s).
    { unfold cooc_tokens. rewrite R1, R2, E1, E2. destruct (rs_builtin _ _ _ _ _); auto. cbn [bind]. destruct (rs_custom _ _ _ _); auto. cbn [bind].
      replace (cooc_placeholder x c) with (cooc_placeholder x c'); auto.
      apply functional_extensionality. intros k. unfold cooc_placeholder. rewrite E1. reflexivity. }
    rewrite T. destruct (cooc_tokens x c' s) as [ts| |]; auto. cbn [bind].
    assert (W : extract_word_pairs o' c ts = extract_word_pairs o' c' ts).
    { unfold extract_word_pairs. rewrite E5, E6. do 3 f_equal. unfold kept_tokens. apply filter_ext. intros t.
      rewrite E4, E7, (smem_perm _ _ _ R6). reflexivity. }
    rewrite W. clear W T. unfold mark_pairs. rewrite (same_map_length _ _ _ E3).
    generalize (Ok (repeat f0 (length (cv_pairs c')))) as acc. induction (extract_word_pairs o' c' ts) as [|q l IH]; intros acc; simpl; auto.
    rewrite IH. f_equal. destruct acc; auto. cbn [bind]. rewrite (same_map_get_eq _ pair_eqb_spec _ _ q E3). reflexivity.
  Qed.

  Hypothesis once : pairs_once L f.

  Definition same_featurizer (z z' : Featurizer) : Prop :=
    forall o1 o2 o1' o2' s, featurize x ngrams o1 o2 z s = featurize x ngrams o1' o2' z' s.
  Lemma both_featurizer p r r' : same_res r r' ->
    both same_featurizer (load_featurizer x L fo f p r) (load_featurizer x L fo' f p r').
  Proof.
    intros R. unfold load_featurizer. both_same.
    eapply both_bind with (R := same_tfidf).
    { unfold load_tfidf. eapply both_bind; [apply both_read; intros; apply both_tfidf|]. intros m m' _ _ M. apply both_tfidf_new; auto. }
    intros t t' _ _ T.
    eapply both_bind with (R := fun c c' => match c, c' with
      | Some c, Some c' => forall o o' s, cooc_transform x o c s = cooc_transform x o' c' s | None, None => True | _, _ => False end).
    { destruct (snd a) as [n|]; [|exact I].
      unfold load_cooc. eapply both_bind with (R := fun c c' => forall o o' s, cooc_transform x o c s = cooc_transform x o' c' s).
      - eapply both_bind with (R := fun m m' => same_cooc_model m m' /\ NoDup (map snd (cm_pairs m))).
        + apply both_read. intros j J.
          pose proof (both_cooc (fo (pjoin (pjoin p n) $"vectorizer.json")) (fo' (pjoin (pjoin p n) $"vectorizer.json")) j) as B.
          pose proof (fun m => once _ j (fo (pjoin (pjoin p n) $"vectorizer.json")) m J) as O.
          destruct (d_cooccurrence (fo _) j) as [m| |], (d_cooccurrence (fo' _) j) as [m'| |]; simpl in *; try contradiction; auto.
        + intros m m' _ _ [M N]. eapply both_impl; [|apply both_cooc_new; eauto]. intros c c' [C H] o o' s. eapply cooc_same; eauto.
      - intros c c' _ _ C. exact C. }
    intros c c' _ _ C. simpl. intros o1 o2 o1' o2' s. unfold featurize. cbn [fz_tfidf fz_cooc].
    rewrite (tfidf_same o1 o1' t t' s T). destruct (tfidf_transform x ngrams o1' t' s); auto. cbn [bind].
    destruct c, c'; try contradiction; auto. rewrite (C o2 o2'). reflexivity.
  Qed.
  Lemma both_classifier p r r' : same_res r r' ->
    both eq (load_classifier x ngrams L fo uo f p r) (load_classifier x ngrams L fo' uo' f p r').
  Proof.
    intros R. unfold load_classifier. both_same. eapply both_bind with (R := eq).
    - destruct (clm_featurizer a); [|apply both_eq; reflexivity].
      eapply both_bind; [apply both_featurizer; exact R|]. intros z z' _ _ Z. simpl. f_equal. apply functional_extensionality. intros s'. apply Z.
    - intros z z' _ _ <-. both_same. reflexivity.
  Qed.

  (** ** Slot fillers *)
  Lemma features_same r r' g g' : same_res r r' -> same_factory g g' -> both eq (get_features x shape g r) (get_features x shape g' r').
  Proof.
    intros (R1 & R2 & R3 & R4 & R5 & _) (E1 & E2 & E3). apply both_eq. unfold get_features. rewrite E1, E2.
    unfold build_ngram, build_shape_ngram, build_prefix, build_suffix, build_entity_match, build_builtin_match, build_word_cluster,
      parse_as_string, parse_as_opt_string, parse_as_vec_string, parse_as_bool, parse_as_u64.
    assert (S : forall k, sget k (ff_args g) = sget k (ff_args g')) by (intros; apply sget_res; exact E3).
    rewrite !S, R1, R2, R3.
    assert (G1 : forall k, sget k (rs_gazetteers r) = sget k (rs_gazetteers r')) by (intros; apply sget_res; exact R4).
    assert (G2 : forall k, sget k (rs_clusterers r) = sget k (rs_clusterers r')) by (intros; apply sget_res; exact R5).
    repeat match goal with |- (let* _ := (if ?b then _ else _) in _) = _ => destruct b; auto end.
    - f_equal. destruct (ok_or EOther _); auto. cbn [bind]. destruct (match a with JNum _ => _ | _ => _ end); auto. cbn [bind].
      destruct (ok_or EOther (sget $"common_words_gazetteer_name" _)) as [v| |]; auto. cbn [bind]. destruct v; auto. rewrite G1. reflexivity.
    - f_equal. destruct (ok_or EOther (sget $"cluster_name" _)) as [v| |]; auto. cbn [bind]. destruct v; auto. cbn [bind]. rewrite G2. reflexivity.
  Qed.
  Lemma both_crf p r r' : same_res r r' ->
    both (fun c c' => crf_get_slots x c false = crf_get_slots x c' false) (load_crf x shape L fo f p r) (load_crf x shape L fo' f p r').
  Proof.
    intros R. unfold load_crf. eapply both_bind; [apply both_read; intros; apply both_filler|]. intros m m' _ _ (E1 & E2 & E3 & E4 & E5).
    unfold crf_new. rewrite E1, E3, E4. both_same. eapply both_bind with (R := eq).
    - destruct (sm_crf_file m'); [|apply both_eq; reflexivity]. both_same. eapply both_bind with (R := eq).
      + unfold processor_new. eapply both_bind; [apply both_mapM with (R := eq)|].
        * clear - E5 R. induction E5; constructor; auto. apply features_same; auto.
        * intros l l' _ _ F. apply Forall2_eq in F. subst. reflexivity.
      + intros l l' _ _ <-. reflexivity.
    - intros tp tp' _ _ <-. both_same. simpl. apply functional_extensionality. intros s. unfold crf_get_slots. cbn [cf_tagger cf_processor cf_lang cf_scheme cf_mapping].
      destruct (fst tp), (snd tp); auto. destruct (x_tokenize x a0 s); auto. destruct (compute_features l (t0 :: l0)); auto. cbn [bind].
      destruct (tg_tag t a1); auto. cbn [bind]. destruct (mapM decode_tag a2); auto. cbn [bind]. unfold tags_to_slots.
      destruct (tags_to_slot_ranges _ _ _); auto. cbn [bind]. apply mapM_ext. intros q _. rewrite (sget_res _ _ _ E2). reflexivity.
  Qed.
  Lemma both_slot_filler p r r' : same_res r r' -> both eq (build_slot_filler x shape L fo f p r) (build_slot_filler x shape L fo' f p r').
  Proof.
    intros R. unfold build_slot_filler. both_same. destruct a; try exact I.
    eapply both_bind; [apply both_crf; exact R|]. intros c c' _ _ C. exact C.
  Qed.

  (** ** Probabilistic parser *)
  Definition same_prob (p p' : ProbParser) : Prop := pp_classifier p = pp_classifier p' /\ same_map eq (pp_fillers p) (pp_fillers p').
  Lemma both_prob p r r' : same_res r r' ->
    both same_prob (load_probabilistic x shape ngrams mx L fo uo f p r) (load_probabilistic x shape ngrams mx L fo' uo' f p r').
  Proof.
    intros R. unfold load_probabilistic. both_same. eapply both_bind with (R := eq).
    - unfold build_intent_classifier. both_same. destruct a0; try exact I. eapply both_bind; [apply both_classifier; exact R|].
      intros c c' _ _ <-. reflexivity.
    - intros c c' _ _ <-. eapply both_bind; [apply both_mapM_same with (R := entry_rel eq)|].
      + intros q _. eapply both_bind; [apply both_slot_filler; exact R|]. intros g g' _ _ <-. simpl. split; auto.
      + intros l l' _ _ F. simpl. unfold same_prob, prob_new. cbn [pp_classifier pp_fillers]. split; auto. apply collect_same; [exact str_eqb_spec|exact F].
  Qed.
  Lemma same_prob_eq p p' : same_prob p p' -> prob_intent_parser p = prob_intent_parser p'.
  Proof.
    intros [C F]. unfold prob_intent_parser. f_equal.
    - apply functional_extensionality. intros s. apply functional_extensionality. intros w. unfold prob_parse. rewrite C.
      destruct (ic_get_intent _ _ _); auto. cbn [bind]. destruct (ir_name a); auto. rewrite (sget_res _ _ _ F). reflexivity.
    - apply functional_extensionality. intros s. unfold prob_get_intents. rewrite C. reflexivity.
    - apply functional_extensionality. intros s. apply functional_extensionality. intros w. unfold prob_get_slots.
      rewrite (sget_res _ _ _ F). reflexivity.
  Qed.
End Load.
