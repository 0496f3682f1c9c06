(** Proofs about the engine. *)
From Coq Require Import List NArith ZArith Bool Lia Permutation Sorted Arith.
From Verif Require Import Base Sorting F32 M_Types M_Utils M_Engine S_Base S_Engine P_Base P_F32.
Import ListNotations.

Lemma opt_str_eqb_spec a b : opt_str_eqb a b = true <-> a = b.
Proof.
  destruct a, b; simpl; split; intros H; try discriminate; auto.
  - apply str_eqb_spec in H. congruence.
  - inv H. apply str_eqb_refl.
Qed.

(** ** Intent filters *)
Lemma known_all en i : known en i <-> In i (all_intents en).
Proof.
  unfold known, all_intents, hkeys. rewrite in_map_iff. split.
  - intros [m H]. exists (i, m). auto.
  - intros [[i' m] [E H]]. simpl in E. subst. eauto.
Qed.

Lemma find_none_iff {A} (p : A -> bool) l : find p l = None <-> forall x, In x l -> p x = false.
Proof.
  induction l as [|a l IH]; simpl; split; intros H; auto; try contradiction.
  - destruct (p a) eqn:E; try discriminate. intros x [->|Hx]; auto. apply IH; auto.
  - rewrite (H a) by auto. apply IH. auto.
Qed.

Lemma named_spec (w b : option (list str)) i :
  In i ((match w with Some w => w | None => [] end) ++ (match b with Some b => b | None => [] end))
  <-> (exists l, w = Some l /\ In i l) \/ (exists l, b = Some l /\ In i l).
Proof.
  rewrite in_app_iff.
  assert (G : forall o : option (list str),
             In i (match o with Some l => l | None => [] end) <-> exists l, o = Some l /\ In i l).
  { intros [o|]; simpl; split.
    - intros H. exists o. auto.
    - intros (l & E & H). inv E. auto.
    - intros [].
    - intros (l & E & H). discriminate. }
  rewrite (G w), (G b). tauto.
Qed.

Lemma whitelist_err_iff ord en w b :
  (exists e, get_intents_whitelist ord en w b = Err e) <->
  ~ (names_known en w /\ names_known en b).
Proof.
  unfold get_intents_whitelist.
  match goal with |- context [find ?p ?l] => destruct (find p l) as [i|] eqn:E end.
  - split; [|eauto]. intros _ [Kw Kb].
    assert (Hin := find_some _ _ E). destruct Hin as [Hin Hneg].
    apply named_spec in Hin. apply negb_true_iff, smem_false in Hneg.
    apply Hneg. apply reorder_In. apply known_all.
    destruct Hin as [(l & El & Hl)|(l & El & Hl)]; [eapply Kw|eapply Kb]; eauto.
  - rewrite find_none_iff in E. split; [intros [e H]; discriminate|].
    intros H. exfalso. apply H. split; intros l i El Hl.
    + specialize (E i). rewrite named_spec in E. rewrite negb_false_iff, smem_spec, reorder_In in E.
      apply known_all. apply E. eauto.
    + specialize (E i). rewrite named_spec in E. rewrite negb_false_iff, smem_spec, reorder_In in E.
      apply known_all. apply E. eauto.
Qed.

Lemma whitelist_never_panics ord en w b : get_intents_whitelist ord en w b <> Panic.
Proof.
  unfold get_intents_whitelist.
  match goal with |- context [find ?p ?l] => destruct (find p l) end; discriminate.
Qed.

Lemma whitelist_ok ord en w b :
  names_known en w -> names_known en b ->
  exists f, get_intents_whitelist ord en w b = Ok f /\
    (f = None <-> w = None /\ b = None) /\
    (forall l, f = Some l -> forall i, In i l <-> known en i /\ allowed w b i).
Proof.
  intros Kw Kb. unfold get_intents_whitelist.
  match goal with |- context [find ?p ?l] => destruct (find p l) as [i|] eqn:E end.
  - exfalso.
    assert (Hin := find_some _ _ E). destruct Hin as [Hin Hneg].
    apply named_spec in Hin. apply negb_true_iff, smem_false in Hneg.
    apply Hneg. apply reorder_In. apply known_all.
    destruct Hin as [(l & El & Hl)|(l & El & Hl)]; [eapply Kw|eapply Kb]; eauto.
  - clear E. eexists. split; [reflexivity|]. split.
    + destruct w, b; simpl; intuition discriminate.
    + intros l El i. unfold allowed.
      destruct w as [w|], b as [b|]; simpl in El; inv El.
      * unfold intersect. rewrite !filter_In, existsb_exists, reorder_In, negb_true_iff, smem_false.
        rewrite <- known_all. split.
        -- intros [[H1 H2] (j & Hj & Ej)]. apply str_eqb_spec in Ej. subst j.
           split; auto. split; intros l E; inv E; auto.
        -- intros [H1 [H2 H3]]. split.
           ++ split; auto.
           ++ exists i. split; [apply H2; auto | apply str_eqb_refl].
      * split.
        -- intros H. split; [eapply Kw; eauto|]. split; intros m E; inv E; auto.
        -- intros [_ [H _]]. auto.
      * rewrite filter_In, reorder_In, negb_true_iff, smem_false, <- known_all. split.
        -- intros [H1 H2]. split; auto. split; intros m E; inv E; auto.
        -- intros [H1 [_ H2]]. auto.
Qed.

Lemma whitelist_ok_known ord en w b f :
  get_intents_whitelist ord en w b = Ok f -> names_known en w /\ names_known en b.
Proof.
  unfold get_intents_whitelist.
  match goal with |- context [find ?p ?l] => destruct (find p l) as [i|] eqn:E end; [discriminate|].
  intros _. rewrite find_none_iff in E. split; intros l i El Hl.
  - specialize (E i). rewrite named_spec in E. rewrite negb_false_iff, smem_spec, reorder_In in E.
    apply known_all. apply E. eauto.
  - specialize (E i). rewrite named_spec in E. rewrite negb_false_iff, smem_spec, reorder_In in E.
    apply known_all. apply E. eauto.
Qed.

Lemma whitelist_sound ord en w b f :
  get_intents_whitelist ord en w b = Ok f ->
  (f = None <-> w = None /\ b = None) /\
  (forall l, f = Some l -> forall i, In i l <-> known en i /\ allowed w b i).
Proof.
  intros H. destruct (whitelist_ok_known _ _ _ _ _ H) as [Kw Kb].
  destruct (whitelist_ok ord en w b Kw Kb) as (f' & E & P). rewrite H in E. inv E. exact P.
Qed.

(** ** The parser cascade *)
Lemma last_cons {A} (a d : A) l : last (a :: l) d = last l a.
Proof.
  revert a d. induction l as [|b l IH]; intros a d; auto.
  change (last (a :: b :: l) d) with (last (b :: l) d). rewrite !IH. reflexivity.
Qed.

Lemma parse_loop_ok x en input wl salts sc parsers res :
  parse_loop x en input wl salts sc parsers = Ok res ->
  ps_input res = input /\ ps_alternatives res = [] /\
  ((exists pre p post r,
       parsers = pre ++ p :: post /\
       (forall q, In q pre -> exists s, finds_nothing q input wl s) /\
       ip_parse p input wl = Ok r /\ ir_name (pr_intent r) <> None /\
       ps_intent res = pr_intent r /\
       resolve_slots x en input (pr_slots r) salts = Ok (ps_slots res))
   \/
   (exists scores,
       Forall2 (fun q s => finds_nothing q input wl s) parsers scores /\
       ps_intent res = mkIR None (last scores sc) /\ ps_slots res = [])).
Proof.
  revert sc. induction parsers as [|p rest IH]; simpl; intros sc H.
  - inv H. simpl. split; auto. split; auto. right. exists []. repeat split; auto.
  - bind_inv H. destruct (ir_name (pr_intent a)) as [n|] eqn:En.
    + bind_inv H. inv H. simpl. split; auto. split; auto. left.
      exists [], p, rest, a. simpl. repeat split; auto; try congruence. intros q [].
    + destruct (IH _ H) as (I1 & I2 & I3). split; auto. split; auto.
      assert (FN : finds_nothing p input wl (ir_score (pr_intent a))).
      { exists (pr_slots a). rewrite E. destruct a as [[nm sco] sl]. simpl in *. subst. reflexivity. }
      destruct I3 as [(pre & q & post & r & Ep & Hpre & Hq)|(scores & F & Ei & Es)].
      * left. exists (p :: pre), q, post, r. subst. split; auto. split; auto.
        intros q' [<-|Hq']; eauto.
      * right. exists (ir_score (pr_intent a) :: scores). split; [constructor; auto|].
        split; auto. rewrite Ei, last_cons. reflexivity.
Qed.

Lemma parse_loop_first x en input wl salts sc pre p post r :
  (forall q, In q pre -> exists s, finds_nothing q input wl s) ->
  ip_parse p input wl = Ok r -> ir_name (pr_intent r) <> None ->
  parse_loop x en input wl salts sc (pre ++ p :: post) =
  let* slots := resolve_slots x en input (pr_slots r) salts in
  Ok (mkPR input (pr_intent r) slots []).
Proof.
  revert sc. induction pre as [|q pre IH]; intros sc Hpre Hp Hn.
  - simpl. rewrite Hp. simpl. destruct (ir_name (pr_intent r)); congruence.
  - destruct (Hpre q (or_introl eq_refl)) as (s & slots & Eq).
    change ((q :: pre) ++ p :: post) with (q :: (pre ++ p :: post)).
    cbn [parse_loop]. rewrite Eq. cbn [bind pr_intent ir_name ir_score]. apply IH; auto.
    intros q' Hq'. apply Hpre. right. exact Hq'.
Qed.

Lemma parse_loop_fail x en input wl salts sc pre p post :
  (forall q, In q pre -> exists s, finds_nothing q input wl s) ->
  is_ok (ip_parse p input wl) = false ->
  parse_loop x en input wl salts sc (pre ++ p :: post) =
  match ip_parse p input wl with Err e => Err e | _ => Panic end.
Proof.
  revert sc. induction pre as [|q pre IH]; intros sc Hpre Hp.
  - simpl. destruct (ip_parse p input wl); simpl in *; congruence.
  - destruct (Hpre q (or_introl eq_refl)) as (s & slots & Eq).
    change ((q :: pre) ++ p :: post) with (q :: (pre ++ p :: post)).
    cbn [parse_loop]. rewrite Eq. cbn [bind pr_intent ir_name ir_score]. apply IH; auto.
    intros q' Hq'. apply Hpre. right. exact Hq'.
Qed.

Lemma parse_loop_engine x en en' input wl salts sc parsers :
  en_dataset en = en_dataset en' -> en_resources en = en_resources en' ->
  parse_loop x en input wl salts sc parsers = parse_loop x en' input wl salts sc parsers.
Proof.
  intros Hd Hr. revert sc. induction parsers as [|p rest IH]; intros sc; simpl; auto.
  destruct (ip_parse p input wl); simpl; auto.
  destruct (ir_name (pr_intent a)); auto.
  assert (R : resolve_slots x en input (pr_slots a) salts = resolve_slots x en' input (pr_slots a) salts).
  { unfold resolve_slots, resolve_slot. rewrite Hd, Hr. reflexivity. }
  rewrite R. reflexivity.
Qed.

(** ** Filters are honoured *)
Lemma parse_loop_filter x en input wl salts sc parsers res i l :
  wl = Some l -> (forall p, In p parsers -> honours_filter p) ->
  parse_loop x en input wl salts sc parsers = Ok res ->
  ir_name (ps_intent res) = Some i -> In i l.
Proof.
  intros -> Hon H Hi. apply parse_loop_ok in H as (_ & _ & [H|H]).
  - destruct H as (pre & p & post & r & Ep & _ & Hp & _ & Ei & _).
    rewrite Ei in Hi. eapply (Hon p); eauto. subst. apply in_or_app. simpl. auto.
  - destruct H as (scores & _ & Ei & _). rewrite Ei in Hi. discriminate.
Qed.

(** ** Listing intents *)
Section Merge.
  Notation oget := (hget opt_str_eqb).

  (** The map associates each name with a result of that name. *)
  Definition keyed (m : list (option str * IntentResult)) : Prop :=
    NoDup (hkeys m) /\ forall k r, In (k, r) m -> ir_name r = k.

  Lemma keyed_insert m r :
    keyed m -> keyed (hinsert opt_str_eqb (ir_name r) r m).
  Proof.
    intros [ND K]. split.
    - apply hinsert_NoDup; auto. apply opt_str_eqb_spec.
    - intros k r' H.
      assert (ND' := hinsert_NoDup _ opt_str_eqb_spec (ir_name r) r m ND).
      apply (hget_NoDup _ opt_str_eqb_spec) in H; auto.
      destruct (opt_str_eqb k (ir_name r)) eqn:E.
      + apply opt_str_eqb_spec in E. subst. rewrite hget_insert_eq in H by apply opt_str_eqb_spec.
        inv H. reflexivity.
      + apply (eqb_false _ opt_str_eqb_spec) in E.
        rewrite hget_insert_neq in H by (try apply opt_str_eqb_spec; auto).
        apply hget_In in H; [|apply opt_str_eqb_spec]. eauto.
  Qed.

  Lemma merge_one_insert m r :
    keyed m ->
    merge_one m r = if flt (match oget (ir_name r) m with Some e => ir_score e | None => f0 end) (ir_score r)
                    then hinsert opt_str_eqb (ir_name r) r m else m.
  Proof.
    intros [ND K]. unfold merge_one.
    destruct (oget (ir_name r) m) as [e|] eqn:E.
    - destruct (flt (ir_score e) (ir_score r)); auto.
      apply hget_In in E; [|apply opt_str_eqb_spec]. apply K in E. rewrite E. destruct r; reflexivity.
    - destruct (flt f0 (ir_score r)); reflexivity.
  Qed.

  Lemma keyed_merge_one m r : keyed m -> keyed (merge_one m r).
  Proof.
    intros H. rewrite merge_one_insert by auto.
    destruct (flt _ _); auto. apply keyed_insert. exact H.
  Qed.

  Lemma keyed_merge_fold l m : keyed m -> keyed (fold_left merge_one l m).
  Proof. revert m. induction l; simpl; intros; auto. apply IHl. apply keyed_merge_one. auto. Qed.

  Lemma keyed_nil : keyed [].
  Proof. split; [constructor|intros k r []]. Qed.

  Lemma keyed_merge_first l : keyed (merge_first l).
  Proof.
    unfold merge_first, hcollect.
    assert (G : forall l m, keyed m ->
              keyed (fold_left (fun m kv => hinsert opt_str_eqb (fst kv) (snd kv) m)
                               (map (fun r => (ir_name r, r)) l) m)).
    { clear l. induction l as [|r l IH]; simpl; intros m H; auto. apply IH. apply keyed_insert. auto. }
    apply G. apply keyed_nil.
  Qed.

  (** The map holds, for each name, a best result among those [seen]. *)
  Definition best_of (seen : list IntentResult) (m : list (option str * IntentResult)) : Prop :=
    keyed m /\
    (forall k e, oget k m = Some e -> In e seen) /\
    (forall r, In r seen ->
       match oget (ir_name r) m with
       | Some e => fle (ir_score r) (ir_score e) = true
       | None => flt f0 (ir_score r) = false
       end).

  Notation no_nan l := (forall r, In r l -> fis_nan (ir_score r) = false).

  Lemma f0_not_nan : fis_nan f0 = false. Proof. reflexivity. Qed.

  Lemma best_of_one seen m r :
    no_nan (seen ++ [r]) -> best_of seen m -> best_of (seen ++ [r]) (merge_one m r).
  Proof.
    intros N (K & B1 & B2).
    assert (Nr : fis_nan (ir_score r) = false) by (apply N, in_or_app; simpl; auto).
    assert (Ns : no_nan seen) by (intros; apply N, in_or_app; auto).
    split; [apply keyed_merge_one; auto|].
    rewrite merge_one_insert by auto.
    destruct (flt _ (ir_score r)) eqn:F.
    - split.
      + intros k e H. destruct (opt_str_eqb k (ir_name r)) eqn:E.
        * apply opt_str_eqb_spec in E. subst. rewrite hget_insert_eq in H by apply opt_str_eqb_spec.
          inv H. apply in_or_app. simpl. auto.
        * apply (eqb_false _ opt_str_eqb_spec) in E.
          rewrite hget_insert_neq in H by (try apply opt_str_eqb_spec; auto).
          apply in_or_app. eauto.
      + intros r' Hr'. destruct (opt_str_eqb (ir_name r') (ir_name r)) eqn:E.
        * apply opt_str_eqb_spec in E. rewrite E, hget_insert_eq by apply opt_str_eqb_spec.
          apply in_app_or in Hr'. destruct Hr' as [Hr'|[<-|[]]].
          -- specialize (B2 r' Hr'). rewrite E in B2.
             destruct (oget (ir_name r) m) as [e|].
             ++ eapply fle_trans; [exact B2|apply flt_fle; exact F].
             ++ eapply fle_trans; [|apply flt_fle; exact F].
                apply fle_flt_neg; auto.
          -- apply fle_refl. exact Nr.
        * apply (eqb_false _ opt_str_eqb_spec) in E.
          rewrite hget_insert_neq by (try apply opt_str_eqb_spec; auto).
          apply in_app_or in Hr'. destruct Hr' as [Hr'|[<-|[]]]; [exact (B2 r' Hr')|congruence].
    - split.
      + intros k e H. apply in_or_app. eauto.
      + intros r' Hr'. apply in_app_or in Hr'. destruct Hr' as [Hr'|[<-|[]]]; [exact (B2 r' Hr')|].
        destruct (oget (ir_name r) m) as [e|] eqn:E; auto.
        apply fle_flt_neg; auto. apply Ns. eauto.
  Qed.

  Lemma merge_one_keeps m r k : keyed m -> oget k m <> None -> oget k (merge_one m r) <> None.
  Proof.
    intros K H. rewrite merge_one_insert by auto. destruct (flt _ _); auto.
    destruct (opt_str_eqb k (ir_name r)) eqn:E.
    - apply opt_str_eqb_spec in E. subst. rewrite hget_insert_eq by apply opt_str_eqb_spec. discriminate.
    - apply (eqb_false _ opt_str_eqb_spec) in E.
      rewrite hget_insert_neq by (try apply opt_str_eqb_spec; auto). auto.
  Qed.

  Lemma best_of_fold l : forall seen m,
    no_nan (seen ++ l) -> best_of seen m -> best_of (seen ++ l) (fold_left merge_one l m).
  Proof.
    induction l as [|r l IH]; intros seen m N B; simpl.
    - rewrite app_nil_r. exact B.
    - replace (seen ++ r :: l) with ((seen ++ [r]) ++ l) in * by (rewrite <- app_assoc; reflexivity).
      apply IH; auto. apply best_of_one; auto. intros r' H. apply N, in_or_app. auto.
  Qed.

  Lemma merge_fold_keeps l : forall m k, keyed m -> oget k m <> None -> oget k (fold_left merge_one l m) <> None.
  Proof.
    induction l as [|r l IH]; intros m k K H; simpl; auto.
    apply IH; [apply keyed_merge_one|apply merge_one_keeps]; auto.
  Qed.

  Lemma merge_first_id l :
    NoDup (map ir_name l) -> merge_first l = map (fun r => (ir_name r, r)) l.
  Proof.
    intros ND. unfold merge_first. apply hcollect_NoDup_id; [apply opt_str_eqb_spec|].
    unfold hkeys. rewrite map_map. exact ND.
  Qed.

  Lemma merge_first_get l r :
    NoDup (map ir_name l) -> In r l -> oget (ir_name r) (merge_first l) = Some r.
  Proof.
    intros ND H. apply hget_NoDup; [apply opt_str_eqb_spec|apply keyed_merge_first|].
    rewrite merge_first_id by auto. apply in_map_iff. eauto.
  Qed.

  Lemma best_of_first l :
    NoDup (map ir_name l) -> no_nan l -> best_of l (merge_first l).
  Proof.
    intros ND N. split; [apply keyed_merge_first|]. split.
    - intros k e H. apply hget_In in H; [|apply opt_str_eqb_spec].
      rewrite merge_first_id in H by auto. apply in_map_iff in H as (r & E & H). inv E. auto.
    - intros r H. rewrite merge_first_get by auto. apply fle_refl. apply N. exact H.
  Qed.

  (** The first non empty list. *)
  Definition first_answer (lists : list (list IntentResult)) (r : IntentResult) : Prop :=
    exists pre l post, lists = pre ++ l :: post /\ Forall (fun l => l = []) pre /\ In r l.

  Lemma merge_intents_nonempty input parsers lists :
    Forall2 (fun p l => ip_get_intents p input = Ok l) parsers lists ->
    forall seen m,
    m <> [] -> no_nan (seen ++ concat lists) -> best_of seen m ->
    exists m', merge_intents input parsers m = Ok m' /\ best_of (seen ++ concat lists) m' /\
      forall k, oget k m <> None -> oget k m' <> None.
  Proof.
    induction 1 as [|p l ps ls Hp F IH]; intros seen m Hm N B.
    - simpl. rewrite app_nil_r. eauto.
    - cbn [merge_intents]. rewrite Hp. cbn [bind].
      destruct m as [|kv m0]; [congruence|]. set (m := kv :: m0) in *.
      simpl in N. rewrite app_assoc in N.
      assert (B' : best_of (seen ++ l) (fold_left merge_one l m)).
      { apply best_of_fold; auto. intros r H. apply N, in_or_app. auto. }
      assert (K := merge_fold_keeps l m).
      destruct (IH (seen ++ l) (fold_left merge_one l m)) as (m' & E & B'' & K'); auto.
      + intros E. specialize (K (fst kv)).
        assert (oget (fst kv) m <> None).
        { intros C. rewrite hget_None in C by apply opt_str_eqb_spec. apply C. simpl. auto. }
        apply K in H; [|apply B]. rewrite E in H. apply H. reflexivity.
      + exists m'. split; auto. split.
        * simpl. rewrite app_assoc. exact B''.
        * intros k Hk. apply K', K; auto. apply B.
  Qed.

  Lemma merge_intents_spec input parsers lists :
    Forall2 (fun p l => ip_get_intents p input = Ok l) parsers lists ->
    (forall l, In l lists -> NoDup (map ir_name l)) -> no_nan (concat lists) ->
    exists m, merge_intents input parsers [] = Ok m /\ best_of (concat lists) m /\
      forall r, first_answer lists r -> oget (ir_name r) m <> None.
  Proof.
    induction 1 as [|p l ps ls Hp F IH]; intros ND N.
    - exists []. split; auto. split.
      + split; [apply keyed_nil|]. split; [intros k e H; discriminate|intros r []].
      + intros r (pre & l & post & E & _). destruct pre; discriminate.
    - cbn [merge_intents]. rewrite Hp. cbn [bind].
      destruct l as [|r0 l0].
      + destruct IH as (m & E & B & K).
        { intros l H. apply ND. simpl. auto. }
        { exact N. }
        exists m. split; [exact E|]. split; [exact B|].
        intros r (pre & l & post & E' & Fp & Hr). apply K.
        destruct pre as [|l' pre].
        * simpl in E'. inv E'. destruct Hr.
        * simpl in E'. inv E'. inv Fp. exists pre, l, post. auto.
      + set (l := r0 :: l0) in *.
        assert (NDl : NoDup (map ir_name l)) by (apply ND; simpl; auto).
        assert (Nl : no_nan l) by (intros r H; apply N; change (concat (l :: ls)) with (l ++ concat ls); apply in_or_app; auto).
        destruct (merge_intents_nonempty input ps ls F l (merge_first l)) as (m & E & B & K).
        * intros E. assert (G := merge_first_get l r0 NDl (or_introl eq_refl)). rewrite E in G. discriminate.
        * exact N.
        * apply best_of_first; auto.
        * exists m. split; auto. split; [exact B|].
          intros r (pre & l' & post & E' & Fp & Hr).
          destruct pre as [|l'' pre].
          -- simpl in E'. inv E'. apply K. rewrite merge_first_get by auto. discriminate.
          -- simpl in E'. inv E'. inv Fp. discriminate.
  Qed.
End Merge.

Lemma map_fst_snd_keyed m : keyed m -> map ir_name (map snd m) = hkeys m.
Proof.
  intros [_ K]. unfold hkeys. rewrite map_map. apply map_ext_in. intros [k r] H. apply (K _ _ H).
Qed.

Lemma get_intents_char ord en input lists :
  Forall2 (fun p l => ip_get_intents p input = Ok l) (en_parsers en) lists ->
  (forall l, In l lists -> NoDup (map ir_name l)) ->
  (forall r, In r (concat lists) -> fis_nan (ir_score r) = false) ->
  exists out, get_intents ord en input = Ok out /\
    NoDup (map ir_name out) /\
    StronglySorted (fun a b => fle (ir_score b) (ir_score a) = true) out /\
    (forall r, In r out ->
       In r (concat lists) /\
       forall r', In r' (concat lists) -> ir_name r' = ir_name r ->
                  fle (ir_score r') (ir_score r) = true) /\
    (forall r', In r' (concat lists) -> flt f0 (ir_score r') = true \/ first_answer lists r' ->
       exists r, In r out /\ ir_name r = ir_name r').
Proof.
  intros F ND N.
  destruct (merge_intents_spec input _ lists F ND N) as (m & E & (K & B1 & B2) & FA).
  assert (G : forall k r, In (k, r) m <-> hget opt_str_eqb k m = Some r).
  { intros k r. split.
    - apply hget_NoDup; [apply opt_str_eqb_spec|apply K].
    - apply hget_In, opt_str_eqb_spec. }
  assert (Gin : forall r, In r (map snd (reorder ord m)) <-> hget opt_str_eqb (ir_name r) m = Some r).
  { intros r. rewrite in_map_iff. split.
    - intros ([k r'] & E' & H). simpl in E'. subst r'. apply reorder_In in H.
      assert (ir_name r = k) by (apply K in H; auto). subst. apply G. exact H.
    - intros H. exists (ir_name r, r). split; auto. apply reorder_In, G, H. }
  unfold get_intents. rewrite E. cbn [bind].
  rewrite sort_desc_no_nan.
  2:{ apply Forall_forall. intros r H. apply Gin in H. apply N. eapply B1; eauto. }
  eexists. split; [reflexivity|].
  assert (S := sort_desc_ok ir_score (map snd (reorder ord m)) _ (sort_desc_no_nan _ _
     ltac:(apply Forall_forall; intros r H; apply Gin in H; apply N; eapply B1; eauto))).
  destruct S as (P & _ & S). split; [|split; [exact S|split]].
  - eapply Permutation_NoDup; [apply Permutation_map; exact P|].
    eapply Permutation_NoDup; [apply Permutation_map, Permutation_map, reorder_perm|].
    rewrite map_fst_snd_keyed by auto. apply K.
  - intros r H. rewrite isort_In in H. apply Gin in H. split; [eapply B1; eauto|].
    intros r' Hr' En. specialize (B2 r' Hr'). rewrite En, H in B2. exact B2.
  - intros r' Hr' C.
    destruct (hget opt_str_eqb (ir_name r') m) as [r|] eqn:Er.
    + exists r. assert (En : ir_name r = ir_name r') by (apply K; apply (hget_In _ opt_str_eqb_spec); exact Er).
      split; auto. rewrite isort_In. apply Gin. congruence.
    + exfalso. destruct C as [C|C].
      * specialize (B2 r' Hr'). rewrite Er in B2. congruence.
      * apply FA in C. congruence.
Qed.

Lemma sorted_nth {A} (R : A -> A -> Prop) l :
  StronglySorted R l ->
  forall i j a b, i < j -> nth_error l i = Some a -> nth_error l j = Some b -> R a b.
Proof.
  induction 1 as [|x l S IH F]; intros i j a b L Ha Hb.
  - destruct i; discriminate.
  - destruct j as [|j]; [lia|]. destruct i as [|i]; simpl in *.
    + inv Ha. rewrite Forall_forall in F. apply F. eapply nth_error_In; eauto.
    + eapply IH; [|eauto|eauto]. lia.
Qed.

Lemma nth_sorted {A} (R : A -> A -> Prop) l :
  (forall i j a b, i < j -> nth_error l i = Some a -> nth_error l j = Some b -> R a b) ->
  StronglySorted R l.
Proof.
  induction l as [|x l IH]; intros H; constructor.
  - apply IH. intros i j a b L Ha Hb. apply (H (S i) (S j)); simpl; auto. lia.
  - apply Forall_forall. intros y Hy. apply In_nth_error in Hy as [n Hn].
    apply (H 0 (S n)); simpl; auto. lia.
Qed.

Lemma subseq_refl {A} (l : list A) : subseq l l.
Proof. induction l; constructor; auto. Qed.
Lemma subseq_nil_l {A} (l : list A) : subseq [] l.
Proof. induction l; constructor; auto. Qed.
Lemma subseq_trans {A} (a b c : list A) : subseq a b -> subseq b c -> subseq a c.
Proof.
  intros H1 H2. revert a H1. induction H2; intros a H1; auto.
  - inv H1; [apply subseq_keep | apply subseq_skip]; auto.
  - apply subseq_skip. auto.
Qed.
Lemma subseq_In {A} (l m : list A) x : subseq l m -> In x l -> In x m.
Proof. induction 1; simpl; intros H'; auto. destruct H'; auto. Qed.
Lemma subseq_sorted {A} (R : A -> A -> Prop) l m :
  subseq l m -> StronglySorted R m -> StronglySorted R l.
Proof.
  induction 1; intros S; auto; inv S; auto.
  constructor; auto. rewrite Forall_forall in *. intros y Hy. apply H3. eapply subseq_In; eauto.
Qed.
Lemma subseq_NoDup {A} (l m : list A) : subseq l m -> NoDup m -> NoDup l.
Proof.
  induction 1; intros N; auto; inv N; auto.
  constructor; auto. intros C. apply H2. eapply subseq_In; eauto.
Qed.
Lemma subseq_map {A B} (f : A -> B) l m : subseq l m -> subseq (map f l) (map f m).
Proof. induction 1; simpl; constructor; auto. Qed.
Lemma subseq_filter {A} (p : A -> bool) l : subseq (filter p l) l.
Proof. induction l; simpl; [constructor|]. destruct (p a); constructor; auto. Qed.
Lemma subseq_firstn {A} n (l : list A) : subseq (firstn n l) l.
Proof.
  revert n. induction l; intros [|n]; simpl; try constructor; auto.
  apply subseq_nil_l.
Qed.
Lemma subseq_skipn {A} n (l : list A) : subseq (skipn n l) l.
Proof.
  revert n. induction l; intros [|n]; simpl; try constructor; auto. apply subseq_refl.
Qed.
Lemma subseq_length {A} (l m : list A) : subseq l m -> length l <= length m.
Proof. induction 1; simpl; lia. Qed.

(** ** Alternatives *)
Lemma passes_admissible ord en w b wl r :
  get_intents_whitelist ord en w b = Ok wl ->
  (passes_filter wl r = true <-> admissible en w b r).
Proof.
  intros H. apply whitelist_sound in H as [Hn Hs]. unfold passes_filter, admissible.
  destruct (ir_name r) as [n|].
  - destruct wl as [l|].
    + rewrite smem_spec, (Hs l eq_refl). split.
      * intros K i E. inv E. auto.
      * intros K. destruct (K n eq_refl) as [[? ?]|?]; auto.
        exfalso. assert (Some l = None) by (apply Hn; auto). discriminate.
    + split; auto. intros _ i _. left. apply Hn. reflexivity.
  - split; auto. intros _ i E. discriminate.
Qed.

Lemma pwa_zero x o1 o2 en input w b salts :
  parse_with_alternatives x o1 o2 en input w b 0 salts =
  let* wl := get_intents_whitelist o1 en w b in
  parse_loop x en input wl salts f0 (en_parsers en).
Proof.
  unfold parse_with_alternatives. destruct (get_intents_whitelist o1 en w b); simpl; auto.
  destruct (parse_loop _ _ _ _ _ _ _); reflexivity.
Qed.

Lemma mapM_alternative_intents x en input salts l alts :
  mapM (alternative_of x en input salts) l = Ok alts -> map al_intent alts = l.
Proof.
  intros H. apply mapM_ok_Forall2 in H. induction H as [|r a l alts H F IH]; auto.
  simpl. f_equal; auto. unfold alternative_of in H. bind_inv H. inv H. reflexivity.
Qed.

Lemma mapM_alternative_slots x en input salts l alts :
  mapM (alternative_of x en input salts) l = Ok alts ->
  forall a, In a alts ->
    match ir_name (al_intent a) with
    | Some i => get_slots_with_alternatives x en input i salts = Ok (al_slots a)
    | None => al_slots a = []
    end.
Proof.
  intros H. apply mapM_ok_Forall2 in H. induction H as [|r a l alts H F IH]; [intros a []|].
  intros a' [<-|Ha]; [|exact (IH a' Ha)]. unfold alternative_of in H. bind_inv H. inv H. simpl.
  destruct (ir_name r); [exact E | congruence].
Qed.

Lemma pwa_ok x o1 o2 en input w b n salts res :
  parse_with_alternatives x o1 o2 en input w b n salts = Ok res ->
  exists res0,
    parse_with_alternatives x o1 o2 en input w b 0 salts = Ok res0 /\
    ps_alternatives res0 = [] /\
    ps_input res = ps_input res0 /\ ps_intent res = ps_intent res0 /\ ps_slots res = ps_slots res0 /\
    (n <> 0 ->
     exists out adm, get_intents o2 en input = Ok out /\
       subseq adm out /\ (forall r, In r adm <-> In r out /\ admissible en w b r) /\
       map al_intent (ps_alternatives res) = firstn n (tl adm) /\
       forall a, In a (ps_alternatives res) ->
         match ir_name (al_intent a) with
         | Some i => get_slots_with_alternatives x en input i salts = Ok (al_slots a)
         | None => al_slots a = []
         end) /\
    (n = 0 -> res = res0).
Proof.
  intros H. rewrite pwa_zero. unfold parse_with_alternatives in H.
  bind_inv H. rewrite E. cbn [bind]. bind_inv H. exists a0. split; auto.
  destruct (parse_loop_ok _ _ _ _ _ _ _ _ E0) as (Hi & Ha & _).
  split; auto.
  destruct (n =? 0) eqn:En.
  - apply Nat.eqb_eq in En. subst. inv H. repeat split; auto. congruence.
  - apply Nat.eqb_neq in En. bind_inv H. bind_inv H. inv H. simpl.
    repeat split; auto; [|congruence]. intros _.
    exists a1, (filter (passes_filter a) a1). split; auto. split; [apply subseq_filter|].
    split.
    + intros r. rewrite filter_In. rewrite (passes_admissible _ _ _ _ _ _ E). tauto.
    + split.
      * apply mapM_alternative_intents in E2. rewrite E2.
        destruct (filter (passes_filter a) a1); reflexivity.
      * eapply mapM_alternative_slots; eauto.
Qed.

Lemma get_intents_sorted ord en input out :
  get_intents ord en input = Ok out ->
  StronglySorted (fun a b => fle (ir_score b) (ir_score a) = true) out.
Proof.
  unfold get_intents. intros H. bind_inv H. apply sort_desc_ok in H. apply H.
Qed.

(** The listing has distinct names, whatever the parsers answer. *)
Lemma merge_intents_keyed input parsers m m' :
  keyed m -> merge_intents input parsers m = Ok m' -> keyed m'.
Proof.
  revert m. induction parsers as [|p ps IH]; simpl; intros m K H.
  - inv H. auto.
  - bind_inv H. apply IH in H; auto.
    destruct m; [apply keyed_merge_first|apply keyed_merge_fold; auto].
Qed.

Lemma get_intents_NoDup ord en input out :
  get_intents ord en input = Ok out -> NoDup (map ir_name out).
Proof.
  unfold get_intents. intros H. bind_inv H. apply sort_desc_ok in H as (P & _ & _).
  apply merge_intents_keyed in E; [|apply keyed_nil].
  eapply Permutation_NoDup; [apply Permutation_map; exact P|].
  eapply Permutation_NoDup; [apply Permutation_map, Permutation_map, reorder_perm|].
  rewrite map_fst_snd_keyed by auto. apply E.
Qed.

Lemma existsb_perm {A} (p : A -> bool) l l' : Permutation l l' -> existsb p l = existsb p l'.
Proof.
  induction 1; simpl; auto.
  - rewrite IHPermutation. reflexivity.
  - destruct (p x), (p y); reflexivity.
  - congruence.
Qed.

Lemma get_intents_order ord ord' en input :
  match get_intents ord en input, get_intents ord' en input with
  | Ok l, Ok l' => Permutation l l'
  | Err e, Err e' => e = e'
  | Panic, Panic => True
  | _, _ => False
  end.
Proof.
  unfold get_intents. destruct (merge_intents input (en_parsers en) []) as [m| |]; simpl; auto.
  assert (P : Permutation (map snd (reorder ord m)) (map snd (reorder ord' m))).
  { apply Permutation_map. eapply Permutation_trans; [apply Permutation_sym|]; apply reorder_perm. }
  unfold sort_desc. rewrite (Permutation_length P), (existsb_perm _ _ _ P).
  destruct (_ && _); auto.
  eapply Permutation_trans; [apply Permutation_sym, isort_perm|].
  eapply Permutation_trans; [exact P|apply isort_perm].
Qed.

(** ** Main answer versus alternatives *)
Lemma main_duplicated x o1 o2 en input w b n salts res out :
  parse_with_alternatives x o1 o2 en input w b n salts = Ok res ->
  get_intents o2 en input = Ok out -> length out <= n ->
  exists adm,
    subseq adm out /\ (forall r, In r adm <-> In r out /\ admissible en w b r) /\
    ((exists a, In a (ps_alternatives res) /\ ir_name (al_intent a) = ir_name (ps_intent res)) <->
     (exists r, In r adm /\ ir_name r = ir_name (ps_intent res)) /\
     option_map ir_name (hd_error adm) <> Some (ir_name (ps_intent res))).
Proof.
  intros H Ho Hn.
  assert (ND := get_intents_NoDup _ _ _ _ Ho).
  destruct (pwa_ok _ _ _ _ _ _ _ _ _ _ H) as (res0 & _ & A0 & _ & _ & _ & G & Z).
  destruct (Nat.eq_dec n 0) as [->|Hn0].
  - destruct out; simpl in Hn; [|lia]. exists []. split; [constructor|]. split.
    + intros r. simpl. tauto.
    + rewrite (Z eq_refl), A0. split.
      * intros (a & [] & _).
      * intros [(r & [] & _) _].
  - destruct (G Hn0) as (out' & adm & Eo & Sub & Hadm & Hal & _).
    assert (out' = out) by congruence. subst out'.
    exists adm. split; auto. split; auto.
    assert (ND' : NoDup (map ir_name adm)).
    { eapply subseq_NoDup; [apply subseq_map; exact Sub|exact ND]. }
    assert (F : firstn n (tl adm) = tl adm).
    { apply firstn_all2. apply subseq_length in Sub. destruct adm; simpl in *; lia. }
    rewrite F in Hal.
    assert (Q : (exists a, In a (ps_alternatives res) /\ ir_name (al_intent a) = ir_name (ps_intent res))
                <-> In (ir_name (ps_intent res)) (map ir_name (tl adm))).
    { rewrite <- Hal, map_map, in_map_iff. split.
      - intros (a & Ha & Ea). exists a. auto.
      - intros (a & Ea & Ha). exists a. auto. }
    rewrite Q. destruct adm as [|r0 adm]; simpl.
    + split; [intros []|intros [(r & [] & _) _]].
    + simpl in ND'. inv ND'. split.
      * intros Hin. split.
        -- apply in_map_iff in Hin as (r & Er & Hr). exists r. auto.
        -- intros C. inv C. congruence.
      * intros [(r & [<-|Hr] & Er) C].
        -- congruence.
        -- apply in_map_iff. exists r. auto.
Qed.

(** ** get_slots *)
Lemma get_slots_loop_ok x en input intent salts parsers out :
  get_slots_loop x en input intent salts parsers = Ok out ->
  (exists pre p post slots,
      parsers = pre ++ p :: post /\
      (forall q, In q pre -> ip_get_slots q input intent = Ok []) /\
      ip_get_slots p input intent = Ok slots /\ slots <> [] /\
      resolve_slots x en input slots salts = Ok out) \/
  ((forall q, In q parsers -> ip_get_slots q input intent = Ok []) /\ out = []).
Proof.
  induction parsers as [|p ps IH]; simpl; intros H.
  - inv H. right. split; auto. intros q [].
  - bind_inv H. destruct a as [|s0 a].
    + destruct (IH H) as [(pre & q & post & slots & Ep & Hpre & Hq)|[Hall ->]].
      * left. exists (p :: pre), q, post, slots. subst. split; auto. split; auto.
        intros q' [<-|Hq']; auto.
      * right. split; auto. intros q [<-|Hq]; auto.
    + left. exists [], p, ps, (s0 :: a). repeat split; auto; try discriminate. intros q [].
Qed.

Lemma get_slots_loop_first x en input intent salts pre p post slots :
  (forall q, In q pre -> ip_get_slots q input intent = Ok []) ->
  ip_get_slots p input intent = Ok slots -> slots <> [] ->
  get_slots_loop x en input intent salts (pre ++ p :: post) = resolve_slots x en input slots salts.
Proof.
  induction pre as [|q pre IH]; simpl; intros Hpre Hp Hs.
  - rewrite Hp. simpl. destruct slots; congruence.
  - rewrite (Hpre q) by auto. simpl. apply IH; auto.
Qed.

Lemma get_slots_loop_none x en input intent salts parsers :
  (forall q, In q parsers -> ip_get_slots q input intent = Ok []) ->
  get_slots_loop x en input intent salts parsers = Ok [].
Proof.
  induction parsers as [|q pre IH]; simpl; intros Hpre; auto.
  rewrite (Hpre q) by auto. simpl. apply IH; auto.
Qed.

Lemma get_slots_loop_fail x en input intent salts pre p post :
  (forall q, In q pre -> ip_get_slots q input intent = Ok []) ->
  is_ok (ip_get_slots p input intent) = false ->
  get_slots_loop x en input intent salts (pre ++ p :: post) =
  match ip_get_slots p input intent with Err e => Err e | _ => Panic end.
Proof.
  induction pre as [|q pre IH]; simpl; intros Hpre Hp.
  - destruct (ip_get_slots p input intent); simpl in *; congruence.
  - rewrite (Hpre q) by auto. simpl. apply IH; auto.
Qed.

(** ** Slot resolution *)
Lemma resolve_builtin_same x slot es parser alts s :
  resolve_builtin_slot x slot es parser alts = Ok (Some s) -> resolves slot s.
Proof.
  unfold resolve_builtin_slot. intros H. bind_inv H. bind_inv H.
  destruct a0; inv H. repeat split.
Qed.

Lemma resolve_custom_same slot ext es parser alts s :
  resolve_custom_slot slot ext es parser alts = Ok (Some s) -> resolves slot s.
Proof.
  unfold resolve_custom_slot. intros H. bind_inv H.
  inversion H as [H1]. destruct a; simpl in H1.
  - inv H1. repeat split.
  - destruct ext; simpl in H1; inv H1. repeat split.
Qed.

Lemma resolve_slot_same x en bes ces alts slot s :
  resolve_slot x en bes ces alts slot = Ok (Some s) -> resolves slot s.
Proof.
  unfold resolve_slot. destruct (sget _ _).
  - apply resolve_custom_same.
  - apply resolve_builtin_same.
Qed.

Lemma filter_map_present {A} (l : list (option A)) : filter_map (fun o => o) l = present l.
Proof. induction l as [|[a|] l IH]; simpl; auto. rewrite IH. reflexivity. Qed.

Lemma resolve_slots_ok x en text slots alts out :
  resolve_slots x en text slots alts = Ok out ->
  exists bes ces opts,
    (slots <> [] -> exists bscope cscope,
        rs_builtin (en_resources en) text (Some bscope) false alts = Ok bes /\
        rs_custom (en_resources en) text (Some cscope) alts = Ok ces /\
        (forall e, In e cscope <-> exists s, In s slots /\ is_entity s = e /\ x_kind_from_str x e = None)) /\
    Forall2 (fun slot o => resolve_slot x en bes ces alts slot = Ok o) slots opts /\
    out = present opts.
Proof.
  unfold resolve_slots. intros H. destruct slots as [|s0 slots].
  - inv H. exists [], [], []. repeat split; auto. congruence.
  - bind_inv H. bind_inv H. bind_inv H. inv H. apply mapM_ok_Forall2 in E1.
    exists a, a0, a1. split; [|split; auto using filter_map_present].
    intros _. eexists _, _. split; [exact E|]. split; [exact E0|].
    set (l := s0 :: slots). clear. induction l as [|s l IH]; intros e.
    + simpl. split; [intros []|intros (s & [] & _)].
    + simpl. destruct (x_kind_from_str x (is_entity s)) eqn:K.
      * rewrite IH. split.
        -- intros (s' & H & R). eauto.
        -- intros (s' & [<-|H] & <- & N); [congruence|eauto].
      * simpl. rewrite IH. split.
        -- intros [<-|(s' & H & R)]; eauto.
        -- intros (s' & [<-|H] & Es & N); [auto|eauto].
Qed.

Lemma Forall2_impl {A B} (R S : A -> B -> Prop) l m :
  (forall a b, R a b -> S a b) -> Forall2 R l m -> Forall2 S l m.
Proof. intros H. induction 1; constructor; auto. Qed.

Lemma present_subseq {A B} (R : A -> B -> Prop) l opts :
  Forall2 (fun a o => forall b, o = Some b -> R a b) l opts ->
  exists kept, subseq kept l /\ Forall2 R kept (present opts).
Proof.
  induction 1 as [|a o l opts H F IH].
  - exists []. split; constructor.
  - destruct IH as (kept & S & K). destruct o as [b|].
    + exists (a :: kept). split; [constructor; auto|]. simpl. constructor; auto.
    + exists kept. split; [constructor; auto|]. exact K.
Qed.

Lemma resolve_slots_subseq x en text slots alts out :
  resolve_slots x en text slots alts = Ok out ->
  exists kept, subseq kept slots /\ Forall2 resolves kept out.
Proof.
  intros H. apply resolve_slots_ok in H as (bes & ces & opts & _ & F & ->).
  apply present_subseq. eapply Forall2_impl; [|exact F].
  simpl. intros a o H b ->. eapply resolve_slot_same; eauto.
Qed.

Lemma vec_pop_spec {A} (l : list A) a : vec_pop l = Some a <-> exists b, l = b ++ [a].
Proof.
  unfold vec_pop. destruct l as [|a0 l0] using rev_ind.
  - simpl. split; [discriminate|]. intros (b & H). destruct b; discriminate.
  - rewrite map_app. simpl. rewrite last_last. split.
    + intros H. inv H. eauto.
    + intros (b & H). apply app_inj_tail in H as [_ ->]. reflexivity.
Qed.

Lemma vec_pop_none {A} (l : list A) : vec_pop l = None <-> l = [].
Proof.
  unfold vec_pop. destruct l as [|a0 l0] using rev_ind.
  - simpl. tauto.
  - rewrite map_app. simpl. rewrite last_last. split; [discriminate|].
    intros H. destruct l0; discriminate.
Qed.

Lemma resolve_custom_spec slot ext es parser alts o :
  resolve_custom_slot slot ext es parser alts = Ok o ->
  (o = None <-> ext = false /\ (forall e, ~ found_at_range es slot e) /\
                (forall e, ~ matches_whole_slot parser alts slot e)) /\
  (forall s, o = Some s ->
     (exists e, (found_at_range es slot e \/
                 (forall e, ~ found_at_range es slot e) /\ matches_whole_slot parser alts slot e) /\
                sl_value s = SVCustom (ce_resolved e) /\
                sl_alternatives s = map SVCustom (ce_alternatives e)) \/
     (ext = true /\ (forall e, ~ found_at_range es slot e) /\
      (forall e, ~ matches_whole_slot parser alts slot e) /\
      sl_value s = SVCustom (is_value slot) /\ sl_alternatives s = [])).
Proof.
  unfold resolve_custom_slot. intros H. bind_inv H.
  destruct (find _ es) as [e0|] eqn:Fd.
  - inv E. simpl in H. inv H. apply find_some in Fd as [Hin Hb].
    apply andb_true_iff in Hb as [H1 H2]. apply str_eqb_spec in H1. apply range_eqb_spec in H2.
    assert (FR : found_at_range es slot e0) by (repeat split; auto).
    split.
    + split; [discriminate|]. intros (_ & C & _). exfalso. eapply C; eauto.
    + intros s Hs. inv Hs. left. exists e0. auto.
  - rewrite find_none_iff in Fd.
    assert (NF : forall e, ~ found_at_range es slot e).
    { intros e (Hin & H1 & H2). specialize (Fd e Hin).
      apply str_eqb_spec in H1. apply range_eqb_spec in H2. rewrite H1, H2 in Fd. discriminate. }
    bind_inv E. inv E. inversion H as [Ho]. clear H.
    destruct (vec_pop a0) as [e|] eqn:VP.
    + apply vec_pop_spec in VP as (before & ->).
      destruct (length (ce_value e) =? length (is_value slot)) eqn:L.
      * apply Nat.eqb_eq in L.
        assert (MW : matches_whole_slot parser alts slot e) by (exists before; auto).
        simpl. split.
        -- split; [discriminate|]. intros (_ & _ & C). exfalso. eapply C; eauto.
        -- intros s Hs. inv Hs. left. exists e. auto.
      * apply Nat.eqb_neq in L.
        assert (NM : forall e, ~ matches_whole_slot parser alts slot e).
        { intros e' (b' & P & L'). rewrite E0 in P. inversion P as [P']. apply app_inj_tail in P' as [_ ->]. congruence. }
        destruct ext; simpl.
        -- split; [split; [discriminate|intros [? _]; discriminate]|].
           intros s Hs. inv Hs. right. auto 10.
        -- split; [tauto|intros; discriminate].
    + apply vec_pop_none in VP. subst a0.
      assert (NM : forall e, ~ matches_whole_slot parser alts slot e).
      { intros e' (b' & P & L'). rewrite E0 in P. inversion P as [P']. destruct b'; discriminate. }
      destruct ext; simpl.
      * split; [split; [discriminate|intros [? _]; discriminate]|].
        intros s Hs. inv Hs. right. auto 10.
      * split; [tauto|intros; discriminate].
Qed.

Lemma In_present {A} (a : A) l : In (Some a) l -> In a (present l).
Proof. intros H. apply in_flat_map. exists (Some a). simpl. auto. Qed.

Lemma Forall2_In_l {A B} (R : A -> B -> Prop) l m a :
  Forall2 R l m -> In a l -> exists b, In b m /\ R a b.
Proof.
  induction 1; simpl; intros H'; [contradiction|]. destruct H' as [<-|H']; eauto.
  destruct (IHForall2 H') as (b & ? & ?). eauto.
Qed.

Lemma extensible_kept x en text slots alts out slot :
  resolve_slots x en text slots alts = Ok out -> In slot slots ->
  sget (is_entity slot) (ds_entities (en_dataset en)) = Some true ->
  exists s, In s out /\ resolves slot s.
Proof.
  intros H Hin Hx. apply resolve_slots_ok in H as (bes & ces & opts & _ & F & ->).
  destruct (Forall2_In_l _ _ _ _ F Hin) as (o & Ho & Hr).
  unfold resolve_slot in Hr. rewrite Hx in Hr.
  destruct o as [s|].
  - exists s. split; [apply In_present; auto|]. eapply resolve_custom_same; eauto.
  - apply resolve_custom_spec in Hr as [[C _] _]. destruct (C eq_refl) as [C' _]. discriminate.
Qed.

Lemma custom_slots_char x en text slots alts out :
  resolve_slots x en text slots alts = Ok out -> slots <> [] ->
  exists scope ces opts,
    rs_custom (en_resources en) text (Some scope) alts = Ok ces /\
    (forall e, In e scope <-> exists s, In s slots /\ is_entity s = e /\ x_kind_from_str x e = None) /\
    out = present opts /\
    Forall2 (fun slot o =>
      forall ext, sget (is_entity slot) (ds_entities (en_dataset en)) = Some ext ->
        (o = None <-> ext = false /\ (forall e, ~ found_at_range ces slot e) /\
                      (forall e, ~ matches_whole_slot (rs_custom (en_resources en)) alts slot e)) /\
        (forall s, o = Some s -> ext = false ->
           exists e, (found_at_range ces slot e \/
                      matches_whole_slot (rs_custom (en_resources en)) alts slot e) /\
                     sl_value s = SVCustom (ce_resolved e) /\
                     sl_alternatives s = map SVCustom (ce_alternatives e)))
      slots opts.
Proof.
  intros H Hne. apply resolve_slots_ok in H as (bes & ces & opts & P & F & ->).
  destruct (P Hne) as (bscope & cscope & _ & Hc & Hs).
  exists cscope, ces, opts. split; auto. split; auto. split; auto.
  eapply Forall2_impl; [|exact F]. simpl. intros slot o H ext Hx.
  unfold resolve_slot in H. rewrite Hx in H. apply resolve_custom_spec in H as [H1 H2].
  split; auto. intros s Hs' ->. destruct (H2 s Hs') as [(e & He & R)|(C & _)]; [|discriminate].
  exists e. split; auto. tauto.
Qed.

(** ** Exact values of resolved slots *)
Lemma find_first_such {A} (f : A -> bool) (P : A -> Prop) l :
  (forall a, f a = true <-> P a) ->
  match find f l with
  | Some a => first_such P l a
  | None => forall a, In a l -> ~ P a
  end.
Proof.
  intros S. induction l as [|a l IH]; simpl; [tauto|].
  destruct (f a) eqn:F.
  - exists [], l. split; auto. split; [apply S; auto|intros b []].
  - assert (N : ~ P a) by (rewrite <- S; congruence).
    destruct (find f l) as [b|].
    + destruct IH as (x & y & -> & Pb & Nb). exists (a :: x), y. split; auto. split; auto.
      intros c [<-|H]; auto.
    + intros b [<-|H]; auto.
Qed.

Lemma resolve_custom_exact slot ext es parser alts o :
  resolve_custom_slot slot ext es parser alts = Ok o ->
  (exists e, first_such (custom_at slot) es e /\
     o = Some (with_value slot (SVCustom (ce_resolved e)) (map SVCustom (ce_alternatives e)))) \/
  ((forall e, In e es -> ~ custom_at slot e) /\
   exists found, parser (is_value slot) (Some [is_entity slot]) alts = Ok found /\
   ((exists before e, found = before ++ [e] /\ length (ce_value e) = length (is_value slot) /\
       o = Some (with_value slot (SVCustom (ce_resolved e)) (map SVCustom (ce_alternatives e)))) \/
    ((forall before e, found = before ++ [e] -> length (ce_value e) <> length (is_value slot)) /\
     o = if ext then Some (with_value slot (SVCustom (is_value slot)) []) else None))).
Proof.
  unfold resolve_custom_slot. intros H. bind_inv H.
  pose proof (find_first_such
    (fun e => str_eqb (ce_entity e) (is_entity slot) && range_eqb (ce_range e) (is_range slot))
    (custom_at slot) es) as FS.
  destruct (find _ es) as [e0|] eqn:Fd.
  - inv E. inv H. left. exists e0. split; auto. apply FS.
    intros e. unfold custom_at. rewrite andb_true_iff, str_eqb_spec, range_eqb_spec. tauto.
  - right. split.
    { apply FS. intros e. unfold custom_at. rewrite andb_true_iff, str_eqb_spec, range_eqb_spec. tauto. }
    bind_inv E. inv E. inv H. exists a0. split; auto.
    destruct (vec_pop a0) as [e|] eqn:VP.
    + apply vec_pop_spec in VP as (before & ->).
      destruct (length (ce_value e) =? length (is_value slot)) eqn:L.
      * apply Nat.eqb_eq in L. left. exists before, e. auto.
      * apply Nat.eqb_neq in L. right. split.
        -- intros b e' Q. apply app_inj_tail in Q as [_ <-]. auto.
        -- destruct ext; reflexivity.
    + apply vec_pop_none in VP. subst a0. right. split.
      * intros b e' Q. destruct b; discriminate.
      * destruct ext; reflexivity.
Qed.

Lemma resolve_builtin_exact x slot es parser alts o :
  resolve_builtin_slot x slot es parser alts = Ok o ->
  exists k, x_kind_of_identifier x (is_entity slot) = Some k /\
  ((exists e, first_such (builtin_at k slot) es e /\
      o = Some (with_value slot (be_entity e) (be_alternatives e))) \/
   ((forall e, In e es -> ~ builtin_at k slot e) /\
    exists found, parser (is_value slot) (Some [k]) false alts = Ok found /\
    ((exists before e, found = before ++ [e] /\
        o = Some (with_value slot (be_entity e) (be_alternatives e))) \/
     (found = [] /\ o = None)))).
Proof.
  unfold resolve_builtin_slot. intros H. bind_inv H. bind_inv H.
  destruct (x_kind_of_identifier x (is_entity slot)) as [k|]; inv E. exists a. split; auto.
  pose proof (find_first_such
    (fun e => str_eqb (be_kind e) a && range_eqb (be_range e) (is_range slot))
    (builtin_at a slot) es) as FS.
  destruct (find _ es) as [e0|] eqn:Fd.
  - inv E0. inv H. left. exists e0. split; auto. apply FS.
    intros e. unfold builtin_at. rewrite andb_true_iff, str_eqb_spec, range_eqb_spec. tauto.
  - right. split.
    { apply FS. intros e. unfold builtin_at. rewrite andb_true_iff, str_eqb_spec, range_eqb_spec. tauto. }
    bind_inv E0. inv E0. inv H. eexists. split; [eassumption|].
    destruct (vec_pop _) as [e|] eqn:VP.
    + apply vec_pop_spec in VP as (before & ->). left. exists before, e. auto.
    + apply vec_pop_none in VP. subst. right. auto.
Qed.

Lemma resolve_slots_scopes x en text slots alts out :
  resolve_slots x en text slots alts = Ok out -> slots <> [] ->
  exists kinds names bes ces opts,
    rs_builtin (en_resources en) text (Some kinds) false alts = Ok bes /\
    rs_custom (en_resources en) text (Some names) alts = Ok ces /\
    (forall k, In k kinds <-> exists s, In s slots /\ x_kind_from_str x (is_entity s) = Some k) /\
    (forall e, In e names <-> exists s, In s slots /\ is_entity s = e /\ x_kind_from_str x e = None) /\
    out = present opts /\
    Forall2 (fun slot o => resolve_slot x en bes ces alts slot = Ok o) slots opts.
Proof.
  intros H Hne. unfold resolve_slots in H. destruct slots as [|s0 slots]; [congruence|].
  bind_inv H. bind_inv H. bind_inv H. inv H. apply mapM_ok_Forall2 in E1.
  eexists _, _, a, a0, a1. split; [exact E|]. split; [exact E0|].
  split; [|split; [|split; [apply filter_map_present|exact E1]]].
  - set (l := s0 :: slots). clear. induction l as [|s l IH]; intros e.
    + simpl. split; [intros []|intros (s & [] & _)].
    + simpl. destruct (x_kind_from_str x (is_entity s)) eqn:K; simpl; rewrite IH.
      * split.
        -- intros [<-|(s' & H & R)]; eauto.
        -- intros (s' & [<-|H] & N); [left; congruence|eauto].
      * split.
        -- intros (s' & H & R). eauto.
        -- intros (s' & [<-|H] & N); [congruence|eauto].
  - set (l := s0 :: slots). clear. induction l as [|s l IH]; intros e.
    + simpl. split; [intros []|intros (s & [] & _)].
    + simpl. destruct (x_kind_from_str x (is_entity s)) eqn:K.
      * rewrite IH. split.
        -- intros (s' & H & R). eauto.
        -- intros (s' & [<-|H] & <- & N); [congruence|eauto].
      * simpl. rewrite IH. split.
        -- intros [<-|(s' & H & R)]; eauto.
        -- intros (s' & [<-|H] & Es & N); [auto|eauto].
Qed.

Lemma slot_values x en text slots alts out :
  resolve_slots x en text slots alts = Ok out -> slots <> [] ->
  exists kinds names bes ces opts,
    rs_builtin (en_resources en) text (Some kinds) false alts = Ok bes /\
    rs_custom (en_resources en) text (Some names) alts = Ok ces /\
    (forall k, In k kinds <-> exists s, In s slots /\ x_kind_from_str x (is_entity s) = Some k) /\
    (forall e, In e names <-> exists s, In s slots /\ is_entity s = e /\ x_kind_from_str x e = None) /\
    out = present opts /\
    Forall2 (fun slot o =>
      match sget (is_entity slot) (ds_entities (en_dataset en)) with
      | Some ext =>
          (exists e, first_such (custom_at slot) ces e /\
             o = Some (with_value slot (SVCustom (ce_resolved e)) (map SVCustom (ce_alternatives e)))) \/
          ((forall e, In e ces -> ~ custom_at slot e) /\
           exists found, rs_custom (en_resources en) (is_value slot) (Some [is_entity slot]) alts = Ok found /\
           ((exists before e, found = before ++ [e] /\ length (ce_value e) = length (is_value slot) /\
               o = Some (with_value slot (SVCustom (ce_resolved e)) (map SVCustom (ce_alternatives e)))) \/
            ((forall before e, found = before ++ [e] -> length (ce_value e) <> length (is_value slot)) /\
             o = if ext then Some (with_value slot (SVCustom (is_value slot)) []) else None)))
      | None =>
          exists k, x_kind_of_identifier x (is_entity slot) = Some k /\
          ((exists e, first_such (builtin_at k slot) bes e /\
              o = Some (with_value slot (be_entity e) (be_alternatives e))) \/
           ((forall e, In e bes -> ~ builtin_at k slot e) /\
            exists found, rs_builtin (en_resources en) (is_value slot) (Some [k]) false alts = Ok found /\
            ((exists before e, found = before ++ [e] /\
                o = Some (with_value slot (be_entity e) (be_alternatives e))) \/
             (found = [] /\ o = None))))
      end) slots opts.
Proof.
  intros H Hne. apply resolve_slots_scopes in H as (kinds & names & bes & ces & opts & Hb & Hc & Sb & Sc & -> & F); auto.
  exists kinds, names, bes, ces, opts. repeat (split; [assumption || reflexivity|]).
  eapply Forall2_impl; [|exact F]. simpl. intros slot o H. unfold resolve_slot in H.
  destruct (sget _ _) as [ext|].
  - apply resolve_custom_exact in H. exact H.
  - apply resolve_builtin_exact in H. exact H.
Qed.

Lemma mapM_fails {A B} (f : A -> outcome B) l a :
  In a l -> is_ok (f a) = false -> is_ok (mapM f l) = false.
Proof.
  intros Hin N. induction l as [|b l IH]; [contradiction|].
  simpl. destruct Hin as [->|Hin].
  - destruct (f a); simpl in *; congruence.
  - destruct (f b); simpl; auto. specialize (IH Hin). destruct (mapM f l); simpl in *; auto.
Qed.

Lemma unknown_kind_fails x en text slots alts slot :
  In slot slots ->
  sget (is_entity slot) (ds_entities (en_dataset en)) = None ->
  x_kind_of_identifier x (is_entity slot) = None ->
  is_ok (resolve_slots x en text slots alts) = false.
Proof.
  intros Hin Hs Hk. unfold resolve_slots. destruct slots as [|s0 slots]; [contradiction|].
  cbv zeta. destruct (rs_builtin _ _ _ _ _) as [bes| |]; cbn [bind is_ok]; auto.
  destruct (rs_custom _ _ _ _) as [ces| |]; cbn [bind is_ok]; auto.
  assert (N : is_ok (mapM (resolve_slot x en bes ces alts) (s0 :: slots)) = false).
  { apply (mapM_fails _ _ slot Hin). unfold resolve_slot. rewrite Hs.
    unfold resolve_builtin_slot. rewrite Hk. reflexivity. }
  destruct (mapM (resolve_slot x en bes ces alts) (s0 :: slots)); cbn [bind is_ok] in *; auto.
Qed.

(** ** Engine level statements *)
Lemma unknown_rejected x o1 o2 en input w b n salts :
  ~ (names_known en w /\ names_known en b) ->
  exists e, forall parsers,
    parse_with_alternatives x o1 o2 (mkEngine (en_dataset en) parsers (en_resources en))
                            input w b n salts = Err e.
Proof.
  intros H. apply (whitelist_err_iff o1) in H as (e & E).
  exists e. intros parsers. unfold parse_with_alternatives.
  change (get_intents_whitelist o1 (mkEngine (en_dataset en) parsers (en_resources en)) w b) with (get_intents_whitelist o1 en w b).
  rewrite E. reflexivity.
Qed.

Lemma cascade x o1 o2 en input w b salts res :
  parse_with_alternatives x o1 o2 en input w b 0 salts = Ok res ->
  ps_input res = input /\ ps_alternatives res = [] /\
  exists wl, get_intents_whitelist o1 en w b = Ok wl /\
  ((exists pre p post r,
       en_parsers en = pre ++ p :: post /\
       (forall q, In q pre -> exists s, finds_nothing q input wl s) /\
       ip_parse p input wl = Ok r /\ ir_name (pr_intent r) <> None /\
       ps_intent res = pr_intent r /\
       resolve_slots x en input (pr_slots r) salts = Ok (ps_slots res))
   \/
   (exists scores,
       Forall2 (fun q s => finds_nothing q input wl s) (en_parsers en) scores /\
       ps_intent res = mkIR None (last scores f0) /\ ps_slots res = [])).
Proof.
  rewrite pwa_zero. intros H. bind_inv H. apply parse_loop_ok in H as (H1 & H2 & H3).
  split; auto. split; auto. exists a. auto.
Qed.

Lemma first_wins x o1 o2 en input w b salts wl pre p post r :
  en_parsers en = pre ++ p :: post ->
  get_intents_whitelist o1 en w b = Ok wl ->
  (forall q, In q pre -> exists s, finds_nothing q input wl s) ->
  ip_parse p input wl = Ok r -> ir_name (pr_intent r) <> None ->
  parse_with_alternatives x o1 o2 en input w b 0 salts =
  match resolve_slots x en input (pr_slots r) salts with
  | Ok slots => Ok (mkPR input (pr_intent r) slots [])
  | Err e => Err e
  | Panic => Panic
  end.
Proof.
  intros Ep Hw Hpre Hp Hn. rewrite pwa_zero, Hw. cbn [bind]. rewrite Ep.
  rewrite (parse_loop_first _ _ _ _ _ _ _ _ _ _ Hpre Hp Hn).
  destruct (resolve_slots x en input (pr_slots r) salts); reflexivity.
Qed.

Lemma reached_failure x o1 o2 en input w b n salts wl pre p post :
  en_parsers en = pre ++ p :: post ->
  get_intents_whitelist o1 en w b = Ok wl ->
  (forall q, In q pre -> exists s, finds_nothing q input wl s) ->
  (forall e, ip_parse p input wl = Err e ->
     parse_with_alternatives x o1 o2 en input w b n salts = Err e) /\
  (ip_parse p input wl = Panic ->
     parse_with_alternatives x o1 o2 en input w b n salts = Panic).
Proof.
  intros Ep Hw Hpre.
  assert (G : forall o : outcome ParseResult, is_ok o = false ->
            parse_loop x en input wl salts f0 (en_parsers en) = o ->
            parse_with_alternatives x o1 o2 en input w b n salts = o).
  { intros o Ho E. unfold parse_with_alternatives. rewrite Hw. cbn [bind]. rewrite E.
    destruct o; simpl in *; congruence. }
  split.
  - intros e H. apply G; auto. rewrite Ep, parse_loop_fail by (auto; rewrite H; auto).
    rewrite H. reflexivity.
  - intros H. apply G; auto. rewrite Ep, parse_loop_fail by (auto; rewrite H; auto).
    rewrite H. reflexivity.
Qed.

Lemma last_forall {A} (P : A -> Prop) l d : Forall P l -> l <> [] -> P (last l d).
Proof.
  induction 1 as [|a l H F IH]; [congruence|]. intros _. destruct l; simpl in *; auto.
  apply IH. discriminate.
Qed.

Lemma none_found x o1 o2 en input w b salts wl scores :
  get_intents_whitelist o1 en w b = Ok wl ->
  Forall2 (fun q s => finds_nothing q input wl s) (en_parsers en) scores ->
  parse_with_alternatives x o1 o2 en input w b 0 salts =
  Ok (mkPR input (mkIR None (last scores f0)) [] []).
Proof.
  intros Hw F. rewrite pwa_zero, Hw. cbn [bind].
  assert (G : forall sc, parse_loop x en input wl salts sc (en_parsers en) =
                         Ok (mkPR input (mkIR None (last scores sc)) [] [])).
  { induction F as [|p s ps ss H F IH]; intros sc; auto.
    destruct H as (slots & H). cbn [parse_loop]. rewrite H. cbn [bind pr_intent ir_name ir_score].
    rewrite IH, last_cons. reflexivity. }
  apply G.
Qed.

Lemma filters_honoured x o1 o2 en input w b n salts res :
  (forall p, In p (en_parsers en) -> honours_filter p) ->
  (w <> None \/ b <> None) ->
  parse_with_alternatives x o1 o2 en input w b n salts = Ok res ->
  (forall i, ir_name (ps_intent res) = Some i -> known en i /\ allowed w b i) /\
  (forall a i, In a (ps_alternatives res) -> ir_name (al_intent a) = Some i ->
               known en i /\ allowed w b i).
Proof.
  intros Hon Hsome H.
  destruct (pwa_ok _ _ _ _ _ _ _ _ _ _ H) as (res0 & H0 & A0 & _ & Hi & _ & G & Z).
  split.
  - intros i E. rewrite Hi in E.
    rewrite pwa_zero in H0. bind_inv H0.
    destruct (whitelist_sound _ _ _ _ _ E0) as [Hn Hs].
    destruct a as [l|].
    + apply (Hs l eq_refl). eapply parse_loop_filter; eauto.
    + exfalso. destruct Hn as [Hn _]. destruct (Hn eq_refl). destruct Hsome; auto.
  - intros a i Ha Ei.
    destruct (Nat.eq_dec n 0) as [->|Hn].
    + rewrite (Z eq_refl), A0 in Ha. destruct Ha.
    + destruct (G Hn) as (out & adm & _ & _ & Hadm & Hal & _).
      assert (In (al_intent a) adm).
      { apply (in_map al_intent) in Ha. rewrite Hal in Ha.
        eapply subseq_In in Ha; [|apply subseq_firstn].
        destruct adm; [destruct Ha|]. right. exact Ha. }
      apply Hadm in H1 as [_ H1]. destruct (H1 i Ei) as [[? ?]|?]; auto.
      exfalso. destruct Hsome; auto.
Qed.

Lemma alternatives_filtered x o1 o2 en input w b n salts res :
  parse_with_alternatives x o1 o2 en input w b n salts = Ok res ->
  length (ps_alternatives res) <= n /\
  best_first (map al_intent (ps_alternatives res)) /\
  (forall a, In a (ps_alternatives res) -> admissible en w b (al_intent a)).
Proof.
  intros H.
  destruct (pwa_ok _ _ _ _ _ _ _ _ _ _ H) as (res0 & _ & A0 & _ & _ & _ & G & Z).
  destruct (Nat.eq_dec n 0) as [->|Hn].
  - rewrite (Z eq_refl), A0. simpl. split; auto. split.
    + intros i j a b' _ E. destruct i; discriminate.
    + intros a [].
  - destruct (G Hn) as (out & adm & Ho & Sub & Hadm & Hal & _).
    rewrite <- (map_length al_intent), Hal. split; [|split].
    + rewrite firstn_length. lia.
    + unfold best_first. apply (sorted_nth (fun a b => fle (ir_score b) (ir_score a) = true)).
      eapply subseq_sorted; [apply subseq_firstn|].
      eapply (subseq_sorted _ _ adm).
      * destruct adm; simpl; [constructor|]. apply subseq_skip, subseq_refl.
      * eapply subseq_sorted; [exact Sub|]. eapply get_intents_sorted; eauto.
    + intros a Ha. apply Hadm.
      apply (in_map al_intent) in Ha. rewrite Hal in Ha.
      eapply subseq_In in Ha; [|apply subseq_firstn].
      destruct adm; [destruct Ha|]. right. exact Ha.
Qed.

Lemma pwa_same_main x o1 o2 en input w b n salts res :
  parse_with_alternatives x o1 o2 en input w b n salts = Ok res ->
  exists res0, parse_with_alternatives x o1 o2 en input w b 0 salts = Ok res0 /\
    ps_alternatives res0 = [] /\ ps_input res = ps_input res0 /\
    ps_intent res = ps_intent res0 /\ ps_slots res = ps_slots res0.
Proof.
  intros H. destruct (pwa_ok _ _ _ _ _ _ _ _ _ _ H) as (res0 & H0 & A0 & H1 & H2 & H3 & _).
  exists res0. auto 10.
Qed.

Lemma get_intents_once_best_first ord en input out :
  get_intents ord en input = Ok out -> NoDup (map ir_name out) /\ best_first out.
Proof.
  intros H. split; [eapply get_intents_NoDup; eauto|].
  unfold best_first. apply (sorted_nth (fun a b => fle (ir_score b) (ir_score a) = true)).
  eapply get_intents_sorted; eauto.
Qed.

Lemma get_intents_best ord en input lists :
  Forall2 (fun p l => ip_get_intents p input = Ok l) (en_parsers en) lists ->
  (forall l, In l lists -> NoDup (map ir_name l)) ->
  (forall r, In r (concat lists) -> fis_nan (ir_score r) = false) ->
  exists out, get_intents ord en input = Ok out /\
    (forall r, In r out ->
       In r (concat lists) /\
       forall r', In r' (concat lists) -> ir_name r' = ir_name r ->
                  fle (ir_score r') (ir_score r) = true) /\
    (forall r', In r' (concat lists) ->
       flt f0 (ir_score r') = true \/
       (exists pre l post, lists = pre ++ l :: post /\ Forall (fun l => l = []) pre /\ In r' l) ->
       exists r, In r out /\ ir_name r = ir_name r').
Proof.
  intros F ND N. destruct (get_intents_char ord en input lists F ND N) as (out & H & _ & _ & H1 & H2).
  exists out. auto.
Qed.

(** ** extract_slot *)
Lemma extract_spec x en input intent slot :
  (~ known en intent -> exists e, extract_slot x en input intent slot = Err e) /\
  (forall mapping, sget intent (ds_slot_name_mappings (en_dataset en)) = Some mapping ->
     ((forall entity, ~ In (slot, entity) mapping) ->
        exists e, extract_slot x en input intent slot = Err e) /\
     (forall entity, sget slot mapping = Some entity ->
        match sget entity (ds_entities (en_dataset en)) with
        | Some extensible =>
            (* custom entity *)
            forall found, rs_custom (en_resources en) input (Some [entity]) 0 = Ok found ->
            (forall before e, found = before ++ [e] ->
               extract_slot x en input intent slot =
               Ok (Some (mkSlot (ce_value e) (SVCustom (ce_resolved e))
                          (map SVCustom (ce_alternatives e)) (ce_range e) entity slot None))) /\
            (found = [] -> extensible = true ->
               extract_slot x en input intent slot =
               Ok (Some (mkSlot input (SVCustom input) [] (0, length input) entity slot None))) /\
            (found = [] -> extensible = false -> extract_slot x en input intent slot = Ok None)
        | None =>
            (* builtin entity *)
            (x_kind_of_identifier x entity = None ->
               exists e, extract_slot x en input intent slot = Err e) /\
            (forall k found, x_kind_of_identifier x entity = Some k ->
               rs_builtin (en_resources en) input (Some [k]) false 0 = Ok found ->
               (found = [] -> extract_slot x en input intent slot = Ok None) /\
               (forall e after, found = e :: after ->
                  extract_slot x en input intent slot =
                  Ok (Some (mkSlot (substring input (be_range e)) (be_entity e)
                             (be_alternatives e) (be_range e) entity slot None))))
        end)).
Proof.
  unfold extract_slot, extract_slot_with_alternatives. split.
  - intros K. assert (E : sget intent (ds_slot_name_mappings (en_dataset en)) = None).
    { apply sget_None. rewrite known_all in K. exact K. }
    rewrite E. simpl. eauto.
  - intros mapping Hm. rewrite Hm. cbn [ok_or bind]. split.
    + intros Hs. assert (E : sget slot mapping = None).
      { apply sget_None. intros C. apply in_map_iff in C as ([s e] & E & C). simpl in E. subst.
        eapply Hs; eauto. }
      rewrite E. simpl. eauto.
    + intros entity He. rewrite He. cbn [ok_or bind].
      destruct (sget entity (ds_entities (en_dataset en))) as [extensible|].
      * intros found Hf. unfold extract_custom_slot. rewrite Hf. cbn [bind]. split; [|split].
        -- intros before e ->.
           rewrite (proj2 (vec_pop_spec (before ++ [e]) e)) by eauto. reflexivity.
        -- intros -> ->. reflexivity.
        -- intros -> ->. reflexivity.
      * unfold extract_builtin_slot. split.
        -- intros K. rewrite K. simpl. eauto.
        -- intros k found K Hf. rewrite K. cbn [ok_or bind]. rewrite Hf. cbn [bind]. split.
           ++ intros ->. reflexivity.
           ++ intros e after ->. reflexivity.
Qed.

Lemma main_again_b res :
  existsb (fun a => opt_str_eqb (ir_name (al_intent a)) (ir_name (ps_intent res))) (ps_alternatives res) = true ->
  exists a, In a (ps_alternatives res) /\ ir_name (al_intent a) = ir_name (ps_intent res).
Proof.
  rewrite existsb_exists. intros (a & H & E). apply opt_str_eqb_spec in E. eauto.
Qed.
