(** Lemmas about entity injection. *)
From Coq Require Import String List NArith ZArith Bool Arith Lia Permutation.
From Verif Require Import Base F32 M_Types M_Engine M_Feat M_Prob M_Features M_Res M_Fs M_Json M_Load M_Inject
  S_Base S_Load S_Inject P_Base P_Load.
Import ListNotations.
Local Open Scope nat_scope.

(** ** Requests *)
Lemma add_values_get adds : forall ij e,
  hget str_eqb e (ij_values (fold_left (fun ij a => add_value ij (fst a) (snd a)) adds ij)) =
  match hget str_eqb e (ij_values ij), values_of adds e with
  | None, [] => None
  | None, vs => Some vs
  | Some l, vs => Some (l ++ vs)
  end.
Proof.
  induction adds as [|[e' v] adds IH]; intros ij e.
  - simpl. destruct (hget str_eqb e (ij_values ij)); auto. rewrite app_nil_r. reflexivity.
  - simpl fold_left. rewrite IH. unfold add_value. simpl ij_values. simpl fst. simpl snd.
    destruct (str_eqb e' e) eqn:E.
    + apply str_eqb_spec in E as ->. rewrite hget_insert_eq by exact str_eqb_spec.
      replace (values_of ((e, v) :: adds) e) with (v :: values_of adds e).
      2:{ unfold values_of. simpl. replace (str_eqb e e) with true; auto. symmetry. apply str_eqb_spec. reflexivity. }
      destruct (hget str_eqb e (ij_values ij)); simpl; [|reflexivity]. rewrite <- app_assoc. reflexivity.
    + rewrite hget_insert_neq; [|exact str_eqb_spec|].
      { replace (values_of ((e', v) :: adds) e) with (values_of adds e); auto.
        unfold values_of. simpl. rewrite E. reflexivity. }
      intros ->. assert (str_eqb e' e' = true) by (apply str_eqb_spec; reflexivity). congruence.
Qed.

Lemma add_values_NoDup adds : forall ij, NoDup (hkeys (ij_values ij)) ->
  NoDup (hkeys (ij_values (fold_left (fun ij a => add_value ij (fst a) (snd a)) adds ij))).
Proof.
  induction adds as [|[e v] adds IH]; intros ij ND; simpl; auto.
  apply IH. unfold add_value. simpl. apply hinsert_NoDup; auto. exact str_eqb_spec.
Qed.

Lemma request_values p adds b r : ij_values (request p adds b r) =
  ij_values (fold_left (fun ij a => add_value ij (fst a) (snd a)) adds (injector_new p)).
Proof. unfold request. destruct r; reflexivity. Qed.

Lemma add_values_dir adds : forall ij,
  ij_dir (fold_left (fun ij a => add_value ij (fst a) (snd a)) adds ij) = ij_dir ij.
Proof. induction adds as [|a adds IH]; intros ij; simpl; auto. rewrite IH. reflexivity. Qed.
Lemma request_dir p adds b r : ij_dir (request p adds b r) = p.
Proof. unfold request. destruct r; simpl; apply add_values_dir. Qed.
Lemma request_vanilla p adds b r : ij_vanilla (request p adds b r) = b.
Proof. unfold request. destruct r; reflexivity. Qed.
Lemma add_values_res adds : forall ij,
  ij_resources (fold_left (fun ij a => add_value ij (fst a) (snd a)) adds ij) = ij_resources ij.
Proof. induction adds as [|a adds IH]; intros ij; simpl; auto. rewrite IH. reflexivity. Qed.
Lemma request_res p adds b r : ij_resources (request p adds b r) = r.
Proof. unfold request. destruct r; simpl; auto. rewrite add_values_res. reflexivity. Qed.

Lemma add_values_vanilla adds : forall ij,
  ij_vanilla (fold_left (fun ij a => add_value ij (fst a) (snd a)) adds ij) = ij_vanilla ij.
Proof. induction adds as [|a adds IH]; intros ij; simpl; auto. rewrite IH. reflexivity. Qed.
Lemma request_defaults p adds :
  request p adds false None = fold_left (fun ij a => add_value ij (fst a) (snd a)) adds (injector_new p).
Proof.
  unfold request, from_vanilla. pose proof (add_values_vanilla adds (injector_new p)) as V.
  destruct (fold_left _ adds _) as [d v b r]. cbn in *. rewrite V. reflexivity.
Qed.
Lemma inject_defaults x L fo uo G o1 o2 o3 p adds f :
  inject x L fo uo G o1 o2 o3 (fold_left (fun ij a => add_value ij (fst a) (snd a)) adds (injector_new p)) f =
  inject x L fo uo G o1 o2 o3 (request p adds false None) f.
Proof. rewrite request_defaults. reflexivity. Qed.

Lemma values_of_nil adds e : values_of adds e = [] <-> ~ requested adds e.
Proof.
  unfold values_of, requested. split.
  - intros H (v & I). apply map_eq_nil in H.
    assert (In (e, v) (filter (fun a => str_eqb (fst a) e) adds)) as K.
    { apply filter_In. split; auto. apply str_eqb_spec. reflexivity. }
    rewrite H in K. contradiction.
  - intros H. destruct (filter _ adds) as [|[e' v] l] eqn:F; auto. exfalso. apply H.
    assert (In (e', v) (filter (fun a => str_eqb (fst a) e) adds)) as K by (rewrite F; left; reflexivity).
    apply filter_In in K as [I K]. apply str_eqb_spec in K. simpl in K. subst e'. eauto.
Qed.

Lemma request_get p adds b r e :
  hget str_eqb e (ij_values (request p adds b r)) =
  match values_of adds e with [] => None | vs => Some vs end.
Proof. rewrite request_values, add_values_get. reflexivity. Qed.

Lemma request_NoDup p adds b r : NoDup (hkeys (ij_values (request p adds b r))).
Proof. rewrite request_values. apply add_values_NoDup. constructor. Qed.

Lemma request_In p adds b r e vs :
  In (e, vs) (ij_values (request p adds b r)) <-> requested adds e /\ vs = values_of adds e.
Proof.
  split.
  - intros I. apply (hget_NoDup str_eqb str_eqb_spec) in I; [|apply request_NoDup].
    rewrite request_get in I. destruct (values_of adds e) as [|v l] eqn:E; [discriminate|]. inv I.
    split; auto. destruct (in_dec (list_eq_dec N.eq_dec) e (map fst adds)) as [K|K].
    + apply in_map_iff in K as ([e' w] & <- & K). exists w. exact K.
    + exfalso. assert (~ requested adds e) as N.
      { intros (w & K'). apply K. apply in_map_iff. exists (e, w). auto. }
      apply values_of_nil in N. congruence.
  - intros [R ->]. apply (hget_In str_eqb str_eqb_spec). rewrite request_get.
    destruct (values_of adds e) as [|v l] eqn:E; auto. exfalso. apply values_of_nil in E. contradiction.
Qed.

Lemma request_keys p adds b r e : In e (hkeys (ij_values (request p adds b r))) <-> requested adds e.
Proof.
  unfold hkeys. rewrite in_map_iff. split.
  - intros ([e' vs] & <- & I). apply request_In in I. tauto.
  - intros R. exists (e, values_of adds e). split; auto. apply request_In. auto.
Qed.

(** ** Values *)
Lemma gvalue_eqb_spec a b : gvalue_eqb a b = true <-> a = b.
Proof.
  unfold gvalue_eqb. rewrite andb_true_iff, !str_eqb_spec. destruct a, b; simpl. split.
  - intros [-> ->]. reflexivity.
  - intros E. inv E. auto.
Qed.

Lemma unique_aux_snoc {A} (eqb : A -> A -> bool) (S : forall a b, eqb a b = true <-> a = b) l a : forall seen,
  unique_aux eqb seen (l ++ [a]) =
  unique_aux eqb seen l ++ (if memb eqb a (seen ++ l) then [] else [a]).
Proof.
  induction l as [|b l IH]; intros seen; simpl.
  - rewrite app_nil_r. destruct (memb eqb a seen); reflexivity.
  - assert (M : forall s, memb eqb a (s ++ b :: l) = memb eqb a (b :: s ++ l)).
    { intros s. apply Bool.eq_true_iff_eq. rewrite !(memb_spec eqb S). simpl. rewrite !in_app_iff. simpl. tauto. }
    destruct (memb eqb b seen) eqn:B.
    + rewrite IH. f_equal. apply (memb_spec eqb S) in B.
      replace (memb eqb a (seen ++ b :: l)) with (memb eqb a (seen ++ l)); auto.
      apply Bool.eq_true_iff_eq. rewrite !(memb_spec eqb S), !in_app_iff. simpl.
      split; [tauto|]. intros [?|[<-|?]]; auto.
    + simpl. rewrite IH. simpl app. rewrite M. reflexivity.
Qed.

Lemma unique_firsts {A} (eqb : A -> A -> bool) (S : forall a b, eqb a b = true <-> a = b) l l' :
  firsts l l' <-> unique eqb l = l'.
Proof.
  split.
  - induction 1 as [|l l' a F IH N|l l' a F IH I]; auto; unfold unique in *; rewrite unique_aux_snoc by exact S;
      simpl; rewrite IH.
    + destruct (memb eqb a l) eqn:M; auto. apply (memb_spec eqb S) in M. contradiction.
    + apply (memb_spec eqb S) in I. rewrite I. apply app_nil_r.
  - intros <-. unfold unique. induction l as [|a l IH] using rev_ind; [constructor|].
    rewrite unique_aux_snoc by exact S. simpl. destruct (memb eqb a l) eqn:M.
    + rewrite app_nil_r. apply firsts_old; auto. apply (memb_spec eqb S). exact M.
    + apply firsts_new; auto. intros I. apply (memb_spec eqb S) in I. congruence.
Qed.

Lemma stems_ok x l (st : str -> str) values :
  mapM (fun v => let* s := ok_or EOther (Some st) in
          Ok (mkGV (gv_resolved v) (join [space] (map s (x_tokenize_light x l (gv_raw v))))))
       (normalize_entity_value x values) = Ok (map (stemmed x l st) values).
Proof.
  unfold normalize_entity_value. induction values as [|v values IH]; auto.
  simpl map. cbn [mapM]. rewrite IH. reflexivity.
Qed.

Lemma given_iff x l u st values vs :
  stem_entity_value x l u st (normalize_entity_value x values) = Ok vs <-> given x l u st values vs.
Proof.
  unfold stem_entity_value, given.
  assert (U : forall a b : list GValue, Ok (unique gvalue_eqb a) = Ok b <-> firsts a b).
  { intros a b. rewrite (unique_firsts gvalue_eqb gvalue_eqb_spec). split; congruence. }
  destruct u.
  - destruct st as [st|].
    + rewrite stems_ok. cbn [bind]. split.
      * intros E. inv E. right. eauto.
      * intros [(-> & ->)|(st' & E & ->)]; [reflexivity|]. inv E. reflexivity.
    + destruct values as [|v values].
      * simpl. split; [intros E; inv E; auto|]. intros [(_ & ->)|(? & ? & _)]; [reflexivity|discriminate].
      * simpl. split; [discriminate|]. intros [(? & _)|(? & ? & _)]; discriminate.
  - cbn [bind]. rewrite U, app_nil_r. reflexivity.
  - destruct st as [st|].
    + rewrite stems_ok. cbn [bind]. rewrite U. split.
      * intros F. right. exists st. auto.
      * intros [(-> & ->)|(st' & E & F)]; [constructor|]. inv E. exact F.
    + destruct values as [|v values].
      * simpl. rewrite U. split.
        -- intros F. left. apply (unique_firsts gvalue_eqb gvalue_eqb_spec) in F. inv F. auto.
        -- intros [(_ & ->)|(? & ? & _)]; [constructor|discriminate].
      * simpl. split; [discriminate|]. intros [(? & _)|(? & ? & _)]; discriminate.
Qed.

Lemma stem_fails_iff x l u st values :
  (u <> WithoutStems /\ st = None /\ values <> []) <->
  stem_entity_value x l u st (normalize_entity_value x values) = Err EOther.
Proof.
  unfold stem_entity_value. split.
  - intros (U & -> & V). destruct values as [|v values]; [contradiction|]. destruct u; [reflexivity|contradiction|reflexivity].
  - destruct u, st as [st|]; try (rewrite stems_ok; discriminate); try discriminate;
      destruct values; try discriminate; intros _; repeat split; discriminate.
Qed.
Lemma stem_no_panic x l u st values : stem_entity_value x l u st (normalize_entity_value x values) <> Panic.
Proof.
  unfold stem_entity_value.
  destruct u, st as [st|]; try (rewrite stems_ok; discriminate); try discriminate; destruct values; discriminate.
Qed.

(** ** Decoding never panics *)
Definition calm {A} (m : outcome A) : Prop := m <> Panic.
Lemma calm_bind {A B} (m : outcome A) (k : A -> outcome B) :
  calm m -> (forall a, calm (k a)) -> calm (bind m k).
Proof. unfold calm. intros Hm Hk. destruct m; simpl; auto. discriminate. Qed.
Lemma calm_mapM {A B} (f : A -> outcome B) l : (forall a, calm (f a)) -> calm (mapM f l).
Proof.
  intros H. induction l as [|a l IH]; [discriminate|]. cbn [mapM].
  apply calm_bind; auto. intros b. apply calm_bind; auto. discriminate.
Qed.
Lemma calm_find l n : calm (find_field l n).
Proof. unfold find_field, calm. destruct (filter _ l) as [|? [|? ?]]; discriminate. Qed.
Lemma calm_fields names j : calm (fields names j).
Proof.
  unfold fields. destruct j; try discriminate.
  - destruct (length names <? length l); discriminate.
  - apply calm_mapM. intros. apply calm_find.
Qed.
Lemma calm_required {A} (d : decoder A) v : (forall j, calm (d j)) -> calm (required d v).
Proof. destruct v; simpl; auto; discriminate. Qed.
Lemma calm_optional {A} (d : decoder A) v : (forall j, calm (d j)) -> calm (optional d v).
Proof.
  intros H. destruct v; simpl; try discriminate.
  destruct j; simpl; try discriminate; apply calm_bind; auto; discriminate.
Qed.
Lemma calm_str j : calm (d_str j). Proof. destruct j; discriminate. Qed.
Lemma calm_bool j : calm (d_bool j). Proof. destruct j; discriminate. Qed.
Lemma calm_vec {A} (d : decoder A) j : (forall j, calm (d j)) -> calm (d_vec d j).
Proof. intros H. destruct j; try discriminate. apply calm_mapM. exact H. Qed.
Lemma calm_ok_or {A} e (o : option A) : calm (ok_or e o). Proof. destruct o; discriminate. Qed.
Lemma calm_map {K V} eqb (key : str -> option K) ord (d : str -> decoder V) j :
  (forall s j, calm (d s j)) -> calm (d_map eqb key ord d j).
Proof.
  intros H. destruct j; try discriminate. apply calm_bind; [|discriminate].
  apply calm_mapM. intros a. apply calm_bind; [apply calm_ok_or|]. intros k. apply calm_bind; auto. discriminate.
Qed.

Ltac calm :=
  repeat first
    [ assumption | discriminate | apply calm_str | apply calm_bool | apply calm_fields | apply calm_ok_or
    | apply calm_vec; intros | apply calm_map; intros | apply calm_required; intros | apply calm_optional; intros
    | apply calm_bind; intros
    | match goal with |- calm (match ?l with _ => _ end) => destruct l end ].

Lemma calm_engine o j : calm (d_engine o j).
Proof.
  unfold d_engine. calm.
Qed.
Lemma calm_builtin_metadata j : calm (d_builtin_metadata j).
Proof. unfold d_builtin_metadata. calm. Qed.
Lemma calm_gazetteer_metadata j : calm (d_gazetteer_metadata j).
Proof. unfold d_gazetteer_metadata. calm. Qed.
Lemma calm_custom_metadata j : calm (d_custom_metadata j).
Proof.
  unfold d_custom_metadata. calm. unfold d_int. calm.
Qed.

Section WithLoader.
  Context (x : Ext) (L : Loader) (fo : path -> orders) (uo : path -> nat -> HashOrder) (G : Gaz).
  Notation prepare := (prepare x L fo uo G).
  Notation inject := (inject x L fo uo G).

  Lemma internal_ok {A} (m : outcome A) a : internal m = Ok a <-> m = Ok a.
  Proof. destruct m; simpl; split; congruence. Qed.
  Lemma internal_calm {A} (m : outcome A) : calm m -> calm (internal m).
  Proof. destruct m; simpl; unfold calm; congruence. Qed.
  Lemma read_calm {A} f p (d : decoder A) : (forall j, calm (d j)) -> calm (read_json L f p d).
  Proof.
    intros H. unfold read_json. apply calm_bind.
    - unfold read_file. destruct (f (resolve p)) as [[|]|]; discriminate.
    - intros c. apply calm_bind; [apply calm_ok_or|auto].
  Qed.

  Definition ei_of (p : path) (M : Meta) : EngineInfo :=
    mkEI (me_lang M) (builtin_dir p M) (custom_dir p M) (hkeys (ds_entities (em_dataset (me_model M)))).
  Definition bi_of (p : path) (M : Meta) : option ParserInfo :=
    option_map (fun np => mkPI (pjoin (builtin_dir p M) (fst np)) (snd np)) (me_builtin M).
  Definition ci_of (p : path) (M : Meta) : ParserInfo * usage :=
    (mkPI (custom_gazetteers p M) (me_custom_parsers M), cu_usage (me_custom M)).

  Lemma infos f p : match get_engine_info L fo f p with
    | Ok ei => match get_builtin_info L f (ei_builtin_dir ei) with
               | Ok bi => match get_custom_info L f (ei_custom_dir ei) with
                          | Ok ci => exists M, metadata L fo f p M /\ ei = ei_of p M /\ bi = bi_of p M /\ ci = ci_of p M
                          | Err _ => forall M, ~ metadata L fo f p M
                          | Panic => False
                          end
               | Err _ => forall M, ~ metadata L fo f p M
               | Panic => False
               end
    | Err _ => forall M, ~ metadata L fo f p M
    | Panic => False
    end.
  Proof.
    unfold get_engine_info. cbv zeta.
    set (file := pjoin p $"nlu_engine.json").
    pose proof (read_calm f file (d_engine (fo file)) (calm_engine _)) as C.
    destruct (read_json L f file (d_engine (fo file))) as [m|e|] eqn:R; cbn [internal bind].
    3: contradiction.
    2:{ intros M (D & _). apply read_json_ok in D. fold file in D. congruence. }
    apply (read_json_ok L) in R. change (decodes L f file (d_engine (fo file)) m) in R.
    assert (U : forall A (d : decoder A) q a b, decodes L f q d a -> decodes L f q d b -> a = b).
    { intros A d q a b (j & J & D) (j' & J' & D'). destruct J as (c & F & E), J' as (c' & F' & E'). congruence. }
    destruct (ld_lang L (ds_language (em_dataset m))) as [l|] eqn:EL; cbn [ok_or bind].
    2:{ intros M (D & K & _). rewrite (U _ _ _ _ _ D R) in K. congruence. }
    cbn [ei_builtin_dir ei_custom_dir].
    (* builtin *)
    unfold get_builtin_info.
    pose proof (read_calm f (pjoin (pjoin p (em_builtin m)) $"metadata.json") _ calm_builtin_metadata) as C1.
    destruct (read_json L f (pjoin (pjoin p (em_builtin m)) $"metadata.json") d_builtin_metadata) as [g|e|] eqn:R1;
      cbn [internal bind].
    3: contradiction.
    2:{ intros M (D & K & D1 & _). apply read_json_ok in D1. unfold builtin_dir in D1.
        rewrite (U _ _ _ _ _ D R) in D1. congruence. }
    apply (read_json_ok L) in R1. fold (decodes L f (pjoin (pjoin p (em_builtin m)) $"metadata.json") d_builtin_metadata g) in R1.
    assert (B : match (match g with
                       | Some name => let gdir := pjoin (pjoin p (em_builtin m)) name in
                           let* ps := internal (read_json L f (pjoin gdir $"metadata.json") d_gazetteer_metadata) in
                           Ok (Some (mkPI gdir ps))
                       | None => Ok None end) with
                | Ok bi => exists np, option_map fst np = g /\
                     bi = option_map (fun np => mkPI (pjoin (pjoin p (em_builtin m)) (fst np)) (snd np)) np /\
                     (forall name parsers, np = Some (name, parsers) ->
                        decodes L f (pjoin (pjoin (pjoin p (em_builtin m)) name) $"metadata.json") d_gazetteer_metadata parsers)
                | Err _ => forall M, ~ metadata L fo f p M
                | Panic => False
                end).
    { destruct g as [name|].
      - cbv zeta.
        pose proof (read_calm f (pjoin (pjoin (pjoin p (em_builtin m)) name) $"metadata.json") _ calm_gazetteer_metadata) as C2.
        destruct (read_json L f (pjoin (pjoin (pjoin p (em_builtin m)) name) $"metadata.json") d_gazetteer_metadata) as [ps|e|] eqn:R2;
          cbn [internal bind].
        + exists (Some (name, ps)). split; [reflexivity|]. split; [reflexivity|].
          intros n q E. inv E. apply (read_json_ok L) in R2. exact R2.
        + intros M (D & K & D1 & D2 & _). unfold builtin_dir in *. rewrite (U _ _ _ _ _ D R) in *.
          pose proof (U _ _ _ _ _ D1 R1) as E. destruct (me_builtin M) as [[n q]|]; inv E.
          specialize (D2 _ q eq_refl). apply (read_json_ok L) in D2. congruence.
        + contradiction.
      - exists None. split; [reflexivity|]. split; [reflexivity|]. discriminate. }
    destruct (match g with Some _ => _ | None => _ end) as [bi|e|]; auto.
    destruct B as (np & Hnp & -> & Bp).
    (* custom *)
    unfold get_custom_info.
    pose proof (read_calm f (pjoin (pjoin p (em_custom m)) $"metadata.json") _ calm_custom_metadata) as C2.
    destruct (read_json L f (pjoin (pjoin p (em_custom m)) $"metadata.json") d_custom_metadata) as [cm|e|] eqn:R2;
      cbn [internal bind].
    3: contradiction.
    2:{ intros M (D & K & D1 & _ & D2 & _). apply read_json_ok in D2. unfold custom_dir in D2.
        rewrite (U _ _ _ _ _ D R) in D2. congruence. }
    apply (read_json_ok L) in R2. fold (decodes L f (pjoin (pjoin p (em_custom m)) $"metadata.json") d_custom_metadata cm) in R2.
    cbv zeta.
    pose proof (read_calm f (pjoin (pjoin (pjoin p (em_custom m)) (cu_directory cm)) $"metadata.json") _ calm_gazetteer_metadata) as C3.
    destruct (read_json L f (pjoin (pjoin (pjoin p (em_custom m)) (cu_directory cm)) $"metadata.json") d_gazetteer_metadata)
      as [ps|e|] eqn:R3; cbn [internal bind].
    3: contradiction.
    2:{ intros M (D & K & D1 & _ & D2 & D3). unfold custom_gazetteers, custom_dir in *.
        rewrite (U _ _ _ _ _ D R) in *. rewrite (U _ _ _ _ _ D2 R2) in *. apply (read_json_ok L) in D3. congruence. }
    apply (read_json_ok L) in R3.
    exists (mkMeta m l np cm ps). split; [|split; [|split]]; try reflexivity.
    unfold metadata, custom_gazetteers, custom_dir, builtin_dir. cbn. subst g. repeat (split; [assumption|]). exact R3.
  Qed.

  Lemma find_first e l md :
    find (fun md : str * str => str_eqb (fst md) e) l = Some md <-> fst md = e /\ first_of e l (snd md).
  Proof.
    induction l as [|[k v] l IH]; simpl.
    - split; [discriminate|]. intros (_ & pre & post & E & _). destruct pre; discriminate.
    - destruct (str_eqb k e) eqn:K.
      + apply str_eqb_spec in K as ->. split.
        * intros E. inv E. split; auto. exists [], l. split; auto.
        * intros (<- & pre & post & E & N). destruct pre as [|a pre]; simpl in E; inv E; [destruct md; reflexivity|].
          exfalso. apply N. left. reflexivity.
      + rewrite IH. split.
        * intros (E & pre & post & -> & N). split; auto.
          exists ((k, v) :: pre), post. split; auto. simpl. intros [->|I]; auto.
          assert (str_eqb e e = true) by (apply str_eqb_spec; reflexivity). congruence.
        * intros (E & pre & post & H & N). split; auto. destruct pre as [|a pre]; simpl in H; inv H.
          -- exfalso. assert (str_eqb (fst md) (fst md) = true) by (apply str_eqb_spec; reflexivity). congruence.
          -- exists pre, post. split; auto. intros I. apply N. right. exact I.
  Qed.

  Lemma dir_in_iff i e d :
    dir_in i e = Ok d <-> exists name, first_of e (pi_parsers i) name /\ d = pjoin (pi_dir i) name.
  Proof.
    unfold dir_in. destruct (find _ (pi_parsers i)) as [[k name]|] eqn:F.
    - apply find_first in F as [E F]. simpl in E. subst k. split.
      + intros H. inv H. eauto.
      + intros (n & F' & ->). assert (K : find (fun md => str_eqb (fst md) e) (pi_parsers i) = Some (e, n)) by (apply find_first; auto).
        assert (K' : find (fun md => str_eqb (fst md) e) (pi_parsers i) = Some (e, name)) by (apply find_first; auto).
        rewrite K in K'. inv K'. reflexivity.
    - split; [discriminate|]. intros (n & F' & ->).
      assert (K : find (fun md => str_eqb (fst md) e) (pi_parsers i) = Some (e, n)) by (apply find_first; auto). congruence.
  Qed.
  Lemma dir_in_err i e : (exists d, dir_in i e = Ok d) \/ dir_in i e = Err EInjectionUnknown.
  Proof. unfold dir_in. destruct (find _ (pi_parsers i)); eauto. Qed.

  Lemma is_custom_iff p M e : smem e (ei_custom (ei_of p M)) = true <-> is_custom M e.
  Proof. unfold smem. rewrite (memb_spec str_eqb str_eqb_spec). reflexivity. Qed.

  Lemma entity_dir_iff p M e d :
    entity_dir G (ei_of p M) (bi_of p M) (fst (ci_of p M)) e = Ok d <-> stored G p M e d.
  Proof.
    unfold entity_dir, stored. destruct (smem e (ei_custom (ei_of p M))) eqn:C.
    - apply is_custom_iff in C. rewrite dir_in_iff. simpl. split; [auto|]. intros [(_ & H)|(N & _)]; [auto|contradiction].
    - assert (N : ~ is_custom M e) by (intros I; apply is_custom_iff with (p := p) in I; congruence).
      destruct (gz_is_gazetteer G e).
      + unfold bi_of. destruct (me_builtin M) as [[dir ps]|] eqn:B; simpl.
        * rewrite dir_in_iff. simpl. split.
          -- intros (n & F & ->). right. split; auto. split; auto. exists dir, ps, n. auto.
          -- intros [(I & _)|(_ & _ & dir' & ps' & n & E & F & ->)]; [contradiction|]. inv E. eauto.
        * split; [discriminate|]. intros [(I & _)|(_ & _ & dir' & ps' & n & E & _)]; [contradiction|discriminate].
      + destruct (gz_is_grammar G e); (split; [discriminate|]); intros [(I & _)|(_ & ? & _)]; try contradiction; discriminate.
  Qed.
  Lemma entity_dir_err ei bi ci e :
    (exists d, entity_dir G ei bi ci e = Ok d) \/ entity_dir G ei bi ci e = Err EInjectionUnknown.
  Proof.
    unfold entity_dir. destruct (smem e (ei_custom ei)); [apply dir_in_err|].
    destruct (gz_is_gazetteer G e); [destruct bi; [apply dir_in_err|auto]|]. destruct (gz_is_grammar G e); auto.
  Qed.

  Lemma mapM_err {A B} (g : A -> outcome B) l e0 :
    (forall a, (exists b, g a = Ok b) \/ g a = Err e0) -> (exists a, In a l /\ g a = Err e0) -> mapM g l = Err e0.
  Proof.
    intros H (a & I & E). induction l as [|b l IH]; [contradiction|]. cbn [mapM].
    destruct (H b) as [[c Hc]|Hc]; rewrite Hc; cbn [bind]; auto.
    destruct I as [->|I]; [congruence|]. rewrite IH by exact I. reflexivity.
  Qed.

  Lemma dirs_err o p M adds b r :
    (exists e, requested adds e /\ forall d, ~ stored G p M e d) ->
    get_entity_dirs G o (ei_of p M) (bi_of p M) (fst (ci_of p M)) (ij_values (request p adds b r)) = Err EInjectionUnknown.
  Proof.
    intros (e & R & N). unfold get_entity_dirs. apply mapM_err.
    - intros a. destruct (entity_dir_err (ei_of p M) (bi_of p M) (fst (ci_of p M)) a) as [[d ->]| ->]; simpl; eauto.
    - exists e. split; [apply reorder_In; apply request_keys; exact R|].
      destruct (entity_dir_err (ei_of p M) (bi_of p M) (fst (ci_of p M)) e) as [[d E]| ->]; [|reflexivity].
      apply entity_dir_iff in E. exfalso. eapply N; eauto.
  Qed.

  Lemma dirs_ok o p M adds b r dirs :
    get_entity_dirs G o (ei_of p M) (bi_of p M) (fst (ci_of p M)) (ij_values (request p adds b r)) = Ok dirs ->
    (forall e d, hget str_eqb e dirs = Some d <-> requested adds e /\ stored G p M e d) /\
    (forall e, requested adds e -> exists d, stored G p M e d).
  Proof.
    intros H. unfold get_entity_dirs in H. apply mapM_ok_Forall2 in H.
    assert (F : Forall2 (fun e ed => fst ed = e /\ stored G p M e (snd ed)) (reorder o (hkeys (ij_values (request p adds b r)))) dirs).
    { clear -H. induction H as [|e ed l l' E F IH]; constructor; auto. bind_inv E. inv E. simpl. split; auto.
      apply entity_dir_iff. exact E0. }
    assert (K : hkeys dirs = reorder o (hkeys (ij_values (request p adds b r)))).
    { clear -F. induction F as [|e ed l l' [E S] F IH]; auto. simpl. rewrite E. f_equal. exact IH. }
    assert (ND : NoDup (hkeys dirs)).
    { rewrite K. eapply Permutation_NoDup; [apply reorder_perm|apply request_NoDup]. }
    assert (S : forall e d, In (e, d) dirs -> stored G p M e d).
    { clear -F. intros e d I. induction F as [|e' ed l l' [E S] F IH]; [contradiction|].
      destruct I as [->|I]; auto. simpl in *. subst. exact S. }
    assert (Kin : forall e, requested adds e <-> exists d, In (e, d) dirs).
    { intros e. rewrite <- (request_keys p adds b r e), <- (reorder_In o), <- K. unfold hkeys. rewrite in_map_iff. split.
      - intros ([e' d] & <- & I). exists d. exact I.
      - intros (d & I). exists (e, d). auto. }
    split.
    - intros e d. split.
      + intros Hg. apply (hget_In str_eqb str_eqb_spec) in Hg. split; [apply Kin; eauto|apply S; exact Hg].
      + intros [R St]. apply Kin in R as (d' & I). assert (d' = d) as ->.
        { apply S in I. apply entity_dir_iff in I, St. congruence. }
        apply (hget_NoDup str_eqb str_eqb_spec); auto.
    - intros e R. apply Kin in R as (d & I). eauto.
  Qed.

  Notation resources_used := (resources_used x L fo uo).

  Lemma prepare_bad_metadata o1 o2 p adds b r f :
    (forall M, ~ metadata L fo f p M) -> exists e, prepare o1 o2 (request p adds b r) f = Err e.
  Proof.
    intros N. unfold M_Inject.prepare. rewrite request_dir. pose proof (infos f p) as I.
    destruct (get_engine_info L fo f p) as [ei|e|]; cbn [bind]; eauto; [|contradiction].
    destruct (get_builtin_info L f (ei_builtin_dir ei)) as [bi|e|]; cbn [bind]; eauto; [|contradiction].
    destruct (get_custom_info L f (ei_custom_dir ei)) as [ci|e|]; cbn [bind]; eauto; [|contradiction].
    destruct I as (M & HM & _). exfalso. eapply N; eauto.
  Qed.

  Lemma metadata_unique f p M M' : metadata L fo f p M -> metadata L fo f p M' -> M = M'.
  Proof.
    assert (U : forall A (d : decoder A) q a b, decodes L f q d a -> decodes L f q d b -> a = b).
    { intros A d q a b (j & J & D) (j' & J' & D'). destruct J as (c & F & E), J' as (c' & F' & E'). congruence. }
    destruct M as [m l bi cm ps], M' as [m' l' bi' cm' ps'].
    unfold metadata, custom_gazetteers, custom_dir, builtin_dir. cbn.
    intros (D1 & K & D2 & D3 & D4 & D5) (D1' & K' & D2' & D3' & D4' & D5').
    pose proof (U _ _ _ _ _ D1 D1'). subst m'. assert (l' = l) by congruence. subst l'.
    pose proof (U _ _ _ _ _ D4 D4'). subst cm'. pose proof (U _ _ _ _ _ D5 D5'). subst ps'.
    pose proof (U _ _ _ _ _ D2 D2') as E. f_equal.
    destruct bi as [[n q]|], bi' as [[n' q']|]; simpl in E; try discriminate; auto. inv E.
    rewrite (U _ _ _ _ _ (D3 _ _ eq_refl) (D3' _ _ eq_refl)). reflexivity.
  Qed.

  Lemma classic_metadata f p : (exists M, metadata L fo f p M) \/ (forall M, ~ metadata L fo f p M).
  Proof.
    pose proof (infos f p) as I.
    destruct (get_engine_info L fo f p) as [ei|e|]; auto; try contradiction.
    destruct (get_builtin_info L f (ei_builtin_dir ei)) as [bi|e|]; auto; try contradiction.
    destruct (get_custom_info L f (ei_custom_dir ei)) as [ci|e|]; auto; try contradiction.
    destruct I as (M & HM & _). eauto.
  Qed.

  Lemma prepare_unfold o1 o2 p adds b r f M : metadata L fo f p M ->
    prepare o1 o2 (request p adds b r) f =
    (let* dirs := get_entity_dirs G o1 (ei_of p M) (bi_of p M) (fst (ci_of p M)) (ij_values (request p adds b r)) in
     let* res := match r with
                 | Some r => Ok r
                 | None => internal (load_engine_shared_resources x L fo uo f p)
                 end in
     let* values := mapM (fun ev =>
                     let vs := normalize_entity_value x (snd ev) in
                     if smem (fst ev) (ei_custom (ei_of p M)) then
                       let* vs' := stem_entity_value x (me_lang M) (cu_usage (me_custom M)) (rs_stemmer res) vs in
                       Ok (fst ev, vs')
                     else Ok (fst ev, vs)) (reorder o2 (ij_values (request p adds b r))) in
     Ok (dirs, values)).
  Proof.
    intros HM. unfold M_Inject.prepare. rewrite request_dir, request_res. pose proof (infos f p) as I.
    destruct (get_engine_info L fo f p) as [ei|e|]; cbn [bind]; [|exfalso; eapply I; eauto|contradiction].
    destruct (get_builtin_info L f (ei_builtin_dir ei)) as [bi|e|]; cbn [bind]; [|exfalso; eapply I; eauto|contradiction].
    destruct (get_custom_info L f (ei_custom_dir ei)) as [ci|e|]; cbn [bind]; [|exfalso; eapply I; eauto|contradiction].
    destruct I as (M' & HM' & -> & -> & ->). rewrite (metadata_unique _ _ _ _ HM' HM). reflexivity.
  Qed.

  Lemma prepare_not_stored o1 o2 p adds b r f M :
    metadata L fo f p M -> (exists e, requested adds e /\ forall d, ~ stored G p M e d) ->
    prepare o1 o2 (request p adds b r) f = Err EInjectionUnknown.
  Proof.
    intros HM H. rewrite (prepare_unfold _ _ _ _ _ _ _ _ HM). rewrite dirs_err by exact H. reflexivity.
  Qed.

  Lemma handed_iff p M st e vals vs :
    (if smem e (ei_custom (ei_of p M)) then
       let* vs' := stem_entity_value x (me_lang M) (cu_usage (me_custom M)) st (normalize_entity_value x vals) in
       Ok (e, vs')
     else Ok (e, normalize_entity_value x vals)) = Ok (e, vs) <-> handed x M st e vals vs.
  Proof.
    unfold handed. destruct (smem e (ei_custom (ei_of p M))) eqn:C.
    - apply is_custom_iff in C. rewrite <- given_iff. split.
      + intros H. bind_inv H. inv H. auto.
      + intros [[_ ->]|[N _]]; [reflexivity|contradiction].
    - assert (N : ~ is_custom M e) by (intros I; apply is_custom_iff with (p := p) in I; congruence). split.
      + intros H. inv H. right. auto.
      + intros [[I _]|[_ ->]]; [contradiction|reflexivity].
  Qed.

  Lemma prepare_ok o1 o2 p adds b r f dirs values :
    prepare o1 o2 (request p adds b r) f = Ok (dirs, values) ->
    exists M res, metadata L fo f p M /\ resources_used f p r res /\
      (forall e d, hget str_eqb e dirs = Some d <-> requested adds e /\ stored G p M e d) /\
      (forall e, requested adds e -> exists d, stored G p M e d) /\
      NoDup (hkeys values) /\
      (forall e vs, In (e, vs) values <-> requested adds e /\ handed x M (rs_stemmer res) e (values_of adds e) vs) /\
      (forall e, requested adds e -> exists vs, In (e, vs) values).
  Proof.
    intros H. destruct (classic_metadata f p) as [(M & HM)|N].
    2:{ destruct (prepare_bad_metadata o1 o2 p adds b r f N) as (e & E). congruence. }
    rewrite (prepare_unfold _ _ _ _ _ _ _ _ HM) in H. bind_inv H. bind_inv H. bind_inv H. inv H.
    destruct (dirs_ok _ _ _ _ _ _ _ E) as [D S]. rename a0 into res.
    exists M, res. split; auto. split.
    { unfold S_Inject.resources_used. destruct r; [inv E0; reflexivity|]. apply internal_ok. exact E0. }
    split; [exact D|]. split; [exact S|].
    apply mapM_ok_Forall2 in E1.
    set (l := reorder o2 (ij_values (request p adds b r))) in *.
    assert (F : Forall2 (fun ev ev' => fst ev' = fst ev /\ handed x M (rs_stemmer res) (fst ev) (snd ev) (snd ev')) l values).
    { clear -E1. induction E1 as [|[e vals] [e' vs] l l' E F IH]; constructor; auto. cbn [fst snd] in *. cbv zeta in E.
      assert (e' = e) as ->.
      { destruct (smem e (ei_custom (ei_of p M))); [bind_inv E|]; inv E; reflexivity. }
      split; auto. apply (handed_iff p). exact E. }
    assert (K : hkeys values = hkeys l).
    { clear -F. induction F as [|ev ev' l l' [E _] F IH]; auto. simpl. rewrite E. f_equal. exact IH. }
    assert (Lk : forall e vals, In (e, vals) l <-> requested adds e /\ vals = values_of adds e).
    { intros e vals. unfold l. rewrite reorder_In. apply request_In. }
    assert (HF : forall e st vals vs vs', handed x M st e vals vs -> handed x M st e vals vs' -> vs = vs').
    { intros e st vals vs vs' A B. apply (handed_iff p) in A, B. congruence. }
    assert (In1 : forall e vs, In (e, vs) values -> requested adds e /\ handed x M (rs_stemmer res) e (values_of adds e) vs).
    { intros e vs I. assert (X : exists vals, In (e, vals) l /\ handed x M (rs_stemmer res) e vals vs).
      { clear -F I. induction F as [|[e1 v1] [e2 v2] l l' [E Hd] F IH]; [contradiction|]. cbn [fst snd] in *.
        destruct I as [I|I]; [inv I; exists v1; split; [left; reflexivity|assumption]|].
        destruct (IH I) as (vals & A & B). exists vals. split; auto. right. exact A. }
      destruct X as (vals & A & B). apply Lk in A as [R ->]. auto. }
    assert (Ex : forall e, requested adds e -> exists vs, In (e, vs) values).
    { intros e R. assert (I : In e (hkeys values)).
      { rewrite K. apply in_map_iff. exists (e, values_of adds e). split; auto. apply Lk. auto. }
      apply in_map_iff in I as ([e' vs] & <- & I). eauto. }
    split; [|split]; auto.
    - rewrite K. unfold l. unfold hkeys. eapply Permutation_NoDup;
        [apply Permutation_map; apply reorder_perm|]. apply request_NoDup.
    - intros e vs. split; auto. intros [R Hd]. destruct (Ex e R) as (vs' & I).
      destruct (In1 _ _ I) as [_ Hd']. rewrite (HF _ _ _ _ _ Hd Hd'). exact I.
  Qed.
End WithLoader.
