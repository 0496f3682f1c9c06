(** Proofs about the entity caches. *)
From Coq Require Import String List NArith ZArith Bool Arith Lia.
From Verif Require Import Base M_Types M_Cache S_Base S_Det S_Cache P_Base.
Import ListNotations.
Local Open Scope nat_scope.

Lemma opt_eqb_spec {A} (eqb : A -> A -> bool) (H : forall x y, eqb x y = true <-> x = y) a b :
  opt_eqb eqb a b = true <-> a = b.
Proof.
  destruct a, b; cbn; try (split; [discriminate|discriminate]); [|tauto].
  rewrite H. split; congruence.
Qed.

Lemma key_eqb_spec a b : key_eqb a b = true <-> a = b.
Proof.
  destruct a as [i k n], b as [i' k' n']. unfold key_eqb; cbn [ck_input ck_kinds ck_alts].
  rewrite !andb_true_iff, Nat.eqb_eq, str_eqb_spec.
  rewrite (opt_eqb_spec (list_eqb str_eqb) (list_eqb_spec str_eqb str_eqb_spec)).
  split; [intros [[-> ->] ->]; reflexivity|intros [= -> -> ->]; auto].
Qed.
Lemma key_eqb_refl k : key_eqb k k = true.
Proof. apply key_eqb_spec. reflexivity. Qed.
Lemma key_eqb_false a b : key_eqb a b = false <-> a <> b.
Proof. rewrite <- key_eqb_spec. destruct (key_eqb a b); split; congruence. Qed.

Section WithValues.
  Context {V : Type} (lower : str -> str) (raw : str -> option (list str) -> nat -> outcome V) (cap : nat).
  Implicit Types (c : lru V) (sh : Shared V) (r : Request).

  Lemma lru_find_In k c v : lru_find k c = Some v -> In (k, v) c.
  Proof.
    induction c as [|[k' v'] c IH]; cbn [lru_find]; [discriminate|].
    destruct (key_eqb k k') eqn:E; [|intros H; right; auto].
    intros [= ->]. apply key_eqb_spec in E. subst. left; reflexivity.
  Qed.
  Lemma lru_find_None k c : lru_find k c = None <-> ~ In k (map fst c).
  Proof.
    induction c as [|[k' v'] c IH]; cbn [lru_find map fst In]; [tauto|].
    destruct (key_eqb k k') eqn:E; [apply key_eqb_spec in E; subst; split; [discriminate|intros H; exfalso; auto]|].
    apply key_eqb_false in E. rewrite IH. intuition congruence.
  Qed.
  Lemma lru_remove_In k c e : In e (lru_remove k c) <-> In e c /\ fst e <> k.
  Proof.
    unfold lru_remove. rewrite filter_In, negb_true_iff, key_eqb_false. intuition congruence.
  Qed.

  (** Each entry of the cache is an answer of the parser. *)
  Definition valid c : Prop := forall k v, In (k, v) c -> raw (ck_input k) (ck_kinds k) (ck_alts k) = Ok v.

  Lemma valid_cons k v c : valid c -> raw (ck_input k) (ck_kinds k) (ck_alts k) = Ok v -> valid ((k, v) :: lru_remove k c).
  Proof.
    intros Hc Hv k' v' [[= <- <-]|H]; [exact Hv|]. apply lru_remove_In in H. apply Hc. tauto.
  Qed.
  Lemma In_removelast {A} (a : A) l : In a (removelast l) -> In a l.
  Proof.
    induction l as [|b l IH]; [tauto|]. cbn [removelast]. destruct l; [intros []|].
    intros [->|H]; [left; reflexivity|right; apply IH; exact H].
  Qed.
  Lemma valid_insert k v c : valid c -> raw (ck_input k) (ck_kinds k) (ck_alts k) = Ok v -> valid (lru_insert cap k v c).
  Proof.
    intros Hc Hv k' v' H. unfold lru_insert in H. apply (valid_cons k v c Hc Hv).
    destruct (cap <? _); [apply In_removelast in H|]; exact H.
  Qed.
  Lemma valid_get k c v c' : valid c -> lru_get k c = (Some v, c') ->
    raw (ck_input k) (ck_kinds k) (ck_alts k) = Ok v /\ valid c'.
  Proof.
    unfold lru_get. intros Hc H. destruct (lru_find k c) as [w|] eqn:E; [|discriminate]. injection H as <- <-.
    apply lru_find_In in E. pose proof (Hc _ _ E) as Hv. split; [exact Hv|]. apply valid_cons; assumption.
  Qed.
  Lemma get_miss k c c' : lru_get k c = (None, c') -> c' = c /\ ~ In k (map fst c).
  Proof.
    unfold lru_get. destruct (lru_find k c) eqn:E; [discriminate|]. intros [= <-]. split; [reflexivity|].
    apply lru_find_None. exact E.
  Qed.

  Notation answer := (answer lower raw).
  Notation extract := (extract lower raw cap).
  Notation calls := (calls lower raw cap).

  Lemma extract_answer sh r : valid (sh_cache sh) -> sh_poisoned sh = false \/ rq_cached r = false ->
    fst (extract sh r) = answer r /\ valid (sh_cache (snd (extract sh r))).
  Proof.
    intros Hv Hp. unfold M_Cache.extract, S_Cache.answer.
    destruct (rq_cached r) eqn:Ec; cbn [negb]; [|split; [reflexivity|exact Hv]].
    destruct Hp as [Hp|Hp]; [|discriminate]. rewrite Hp. unfold try_cache.
    destruct (lru_get (key_of_request lower r) (sh_cache sh)) as [[v|] c'] eqn:E.
    - destruct (valid_get _ _ _ _ Hv E) as [H1 H2]. cbn [fst snd sh_cache]. split; [symmetry; exact H1|exact H2].
    - apply get_miss in E. destruct E as [-> _]. unfold producer. cbn [key_of_request ck_input].
      destruct (raw (lower (rq_text r)) (rq_kinds r) (rq_alts r)) as [v|e|] eqn:Er; cbn [fst snd sh_cache];
        (split; [reflexivity|]); [|exact Hv|exact Hv]. apply valid_insert; [exact Hv|exact Er].
  Qed.

  Lemma extract_poisoned sh r : sh_poisoned (snd (extract sh r)) = true <->
    sh_poisoned sh = true \/ (rq_cached r = true /\ fst (extract sh r) = Panic).
  Proof.
    unfold M_Cache.extract. destruct (rq_cached r); cbn [negb fst snd]; [|intuition discriminate].
    destruct (sh_poisoned sh) eqn:E; cbn [fst snd]; [rewrite E; tauto|].
    destruct (try_cache cap _ _ _) as [[v|e|] c]; cbn [fst snd sh_poisoned]; intuition discriminate.
  Qed.

  (** ** C31 *)
  Lemma calls_answers h : forall sh, valid (sh_cache sh) -> sh_poisoned sh = false -> no_cached_panic lower raw h ->
    fst (calls sh h) = map answer h /\ valid (sh_cache (snd (calls sh h))) /\ sh_poisoned (snd (calls sh h)) = false.
  Proof.
    induction h as [|r h IH]; intros sh Hv Hp Hn; [cbn; auto|]. cbn [S_Cache.calls map].
    destruct (extract_answer sh r Hv (or_introl Hp)) as [E1 E2].
    assert (E3 : sh_poisoned (snd (extract sh r)) = false).
    { apply not_true_iff_false. rewrite extract_poisoned, Hp, E1. intros [H|[H1 H2]]; [discriminate|].
      exact (Hn r (or_introl eq_refl) H1 H2). }
    destruct (extract sh r) as [a sh1]. cbn [fst snd] in *.
    destruct (IH sh1 E2 E3) as (I1 & I2 & I3); [intros r' Hr'; apply Hn; right; exact Hr'|].
    destruct (calls sh1 h) as [l sh2]. cbn [fst snd] in *. subst. auto.
  Qed.

  Lemma valid_nil : valid [].
  Proof. intros k v []. Qed.

  Lemma cache_invisible h : no_cached_panic lower raw h -> fst (calls fresh h) = map answer h.
  Proof. intros H. apply calls_answers; [apply valid_nil|reflexivity|exact H]. Qed.

  Lemma calls_app h1 : forall sh h2, calls sh (h1 ++ h2) =
    (fst (calls sh h1) ++ fst (calls (snd (calls sh h1)) h2), snd (calls (snd (calls sh h1)) h2)).
  Proof.
    induction h1 as [|r h1 IH]; intros sh h2; cbn [app S_Cache.calls fst snd]; [destruct (calls sh h2); reflexivity|].
    destruct (extract sh r) as [a sh1]. rewrite IH. destruct (calls sh1 h1) as [l sh2]. cbn [fst snd].
    destruct (calls sh2 h2). reflexivity.
  Qed.

  Lemma calls_valid h : forall sh, valid (sh_cache sh) -> valid (sh_cache (snd (calls sh h))).
  Proof.
    induction h as [|r h IH]; intros sh Hv; [exact Hv|]. cbn [S_Cache.calls].
    assert (H1 : valid (sh_cache (snd (extract sh r)))).
    { destruct (sh_poisoned sh) eqn:Ep; [|apply extract_answer; [exact Hv|left; exact Ep]].
      unfold M_Cache.extract. rewrite Ep. destruct (rq_cached r); exact Hv. }
    destruct (extract sh r) as [a sh1]. cbn [snd] in H1. specialize (IH sh1 H1). destruct (calls sh1 h). exact IH.
  Qed.

  Lemma error_not_stored h r e : no_cached_panic lower raw h ->
    let sh := snd (calls fresh h) in
    fst (extract sh r) = Err e -> snd (extract sh r) = sh.
  Proof.
    intros Hn sh. unfold sh. destruct (calls_answers h fresh valid_nil eq_refl Hn) as (_ & _ & Hp).
    set (s := snd (calls fresh h)) in *. unfold M_Cache.extract. destruct (rq_cached r); cbn [negb fst snd]; [|reflexivity].
    rewrite Hp. unfold try_cache.
    destruct (lru_get _ (sh_cache s)) as [[v|] c'] eqn:E; [discriminate|]. apply get_miss in E. destruct E as [-> _].
    destruct (producer raw r _); cbn [fst snd]; [discriminate| |discriminate]. intros _. destruct s as [c p]. cbn in *. rewrite Hp. reflexivity.
  Qed.

  (** ** C53 *)
  Lemma case_extract sh r r' : same_request lower r r' -> extract sh r = extract sh r'.
  Proof.
    intros (H1 & H2 & H3 & H4). unfold M_Cache.extract, key_of_request, producer. rewrite H1, H2, H3, H4. reflexivity.
  Qed.
  Lemma case_ignored h h' : Forall2 (same_request lower) h h' -> forall sh, calls sh h = calls sh h'.
  Proof.
    induction 1 as [|r r' h h' Hr Hh IH]; intros sh; [reflexivity|]. cbn [S_Cache.calls]. rewrite (case_extract sh r r' Hr).
    destruct (extract sh r') as [a sh1]. rewrite IH. reflexivity.
  Qed.

  (** ** C34 *)
  Lemma poisoned_forever h : forall sh, sh_poisoned sh = true ->
    snd (calls sh h) = sh /\ fst (calls sh h) = map (fun r => if rq_cached r then Panic else answer r) h.
  Proof.
    induction h as [|r h IH]; intros sh Hp; [auto|]. cbn [S_Cache.calls map].
    unfold M_Cache.extract at 1 2. rewrite Hp. destruct (rq_cached r); cbn [negb];
      destruct (IH sh Hp) as [I1 I2]; destruct (calls sh h) as [l s2]; cbn [fst snd] in *; subst; auto.
  Qed.

  Lemma panic_poisons h r h' : no_cached_panic lower raw h -> rq_cached r = true -> answer r = Panic ->
    fst (calls fresh (h ++ r :: h')) =
      map answer h ++ Panic :: map (fun r' => if rq_cached r' then Panic else answer r') h'.
  Proof.
    intros Hn Hc Hr. rewrite calls_app. cbn [fst]. destruct (calls_answers h fresh valid_nil eq_refl Hn) as (E & Hv & Hp).
    rewrite E. f_equal. set (s := snd (calls fresh h)) in *. cbn [S_Cache.calls].
    destruct (extract_answer s r Hv (or_introl Hp)) as [E1 _]. rewrite Hr in E1.
    assert (E2 : sh_poisoned (snd (extract s r)) = true) by (apply extract_poisoned; auto).
    destruct (extract s r) as [a s1]. cbn [fst snd] in *. subst a.
    destruct (poisoned_forever h' s1 E2) as [_ E3]. destruct (calls s1 h'). cbn [fst] in *. subst. reflexivity.
  Qed.

  (** ** C32 *)
  Notation krem k := (filter (fun k' => negb (key_eqb k k'))).

  (** Distinct keys, the most recent first. *)
  Fixpoint recency (rev_used : list CacheKey) : list CacheKey :=
    match rev_used with
    | [] => []
    | k :: l => k :: krem k (recency l)
    end.

  Lemma krem_In k l a : In a (krem k l) <-> In a l /\ a <> k.
  Proof. rewrite filter_In, negb_true_iff, key_eqb_false. intuition congruence. Qed.
  Lemma krem_absent k l : ~ In k l -> krem k l = l.
  Proof.
    induction l as [|a l IH]; [reflexivity|]. cbn [filter In]. intros H.
    destruct (key_eqb k a) eqn:E; [apply key_eqb_spec in E; subst; exfalso; auto|]. cbn [negb]. f_equal. apply IH. tauto.
  Qed.
  Lemma recency_NoDup l : NoDup (recency l).
  Proof.
    induction l as [|k l IH]; cbn [recency]; constructor.
    - rewrite krem_In. tauto.
    - apply NoDup_filter. exact IH.
  Qed.
  Lemma recency_In l a : In a (recency l) <-> In a l.
  Proof.
    induction l as [|k l IH]; cbn [recency In]; [tauto|]. rewrite krem_In, IH.
    destruct (key_dec k a); intuition congruence.
  Qed.

  Lemma map_fst_remove k c : map fst (lru_remove k c) = krem k (map fst c).
  Proof.
    unfold lru_remove. induction c as [|[k' v] c IH]; [reflexivity|]. cbn [filter map fst].
    destruct (key_eqb k k'); cbn [negb map fst]; rewrite IH; reflexivity.
  Qed.

  Lemma krem_firstn_hit k R n : NoDup R -> In k (firstn n R) ->
    krem k (firstn n R) = firstn (n - 1) (krem k R).
  Proof.
    revert n. induction R as [|a R IH]; intros n HN Hin; [destruct n; destruct Hin|].
    destruct n as [|n]; [destruct Hin|]. cbn [firstn] in *. inversion HN as [|? ? Ha HN']; subst.
    cbn [filter]. destruct (key_eqb k a) eqn:E; cbn [negb].
    - apply key_eqb_spec in E. subst a. rewrite Nat.sub_succ, Nat.sub_0_r.
      rewrite !krem_absent; [reflexivity|exact Ha|]. intros H. apply Ha. clear - H.
      revert n H. induction R as [|b R IH]; intros [|n]; cbn; try tauto. intros [->|H]; eauto.
    - apply key_eqb_false in E. destruct Hin as [->|Hin]; [congruence|].
      rewrite IH by assumption. destruct n as [|n]; [destruct Hin|]. rewrite Nat.sub_succ, Nat.sub_0_r. cbn [firstn].
      replace (S n - 1) with n by lia. reflexivity.
  Qed.
  Lemma firstn_krem_miss k R n : ~ In k (firstn (S n) R) -> firstn n (krem k R) = firstn n R.
  Proof.
    revert n. induction R as [|a R IH]; intros n H; [reflexivity|]. cbn [firstn In] in H.
    cbn [filter]. destruct (key_eqb k a) eqn:E; [apply key_eqb_spec in E; subst; exfalso; auto|]. cbn [negb].
    destruct n as [|n]; [reflexivity|]. cbn [firstn]. f_equal. apply IH. cbn [firstn]. tauto.
  Qed.

  Lemma removelast_firstn {A} (l : list A) n : length l = S n -> removelast l = firstn n l.
  Proof.
    revert n. induction l as [|a l IH]; intros n Hl; [discriminate|]. cbn [length] in Hl. injection Hl as Hl.
    destruct l as [|b l]; [cbn in Hl; subst; reflexivity|]. destruct n as [|n]; [discriminate|].
    change (removelast (a :: b :: l)) with (a :: removelast (b :: l)). rewrite (IH n Hl). reflexivity.
  Qed.

  Lemma map_removelast {A B} (f : A -> B) l : map f (removelast l) = removelast (map f l).
  Proof.
    induction l as [|a l IH]; [reflexivity|]. cbn [removelast map]. destruct l as [|b l]; [reflexivity|].
    cbn [map] in *. rewrite IH. reflexivity.
  Qed.

  Lemma firstn_In {A} n (l : list A) a : In a (firstn n l) -> In a l.
  Proof. revert n. induction l as [|b l IH]; intros [|n]; cbn; try tauto. intros [->|H]; eauto. Qed.

  Lemma NoDup_app_remove_r {A} (l m : list A) : NoDup (l ++ m) -> NoDup l.
  Proof.
    induction l as [|a l IH]; intros H; [constructor|]. inversion H as [|? ? H1 H2]; subst. constructor; [|auto].
    intros Hi. apply H1. apply in_or_app. left; exact Hi.
  Qed.

  (** The cache holds the [cap] first keys. *)
  Lemma get_recency k c v c' R : NoDup R -> map fst c = firstn cap R -> lru_get k c = (Some v, c') ->
    map fst c' = firstn cap (k :: krem k R).
  Proof.
    intros HN Hc H. unfold lru_get in H. destruct (lru_find k c) as [w|] eqn:E; [|discriminate]. injection H as <- <-.
    apply lru_find_In in E. apply (in_map fst) in E. cbn [fst] in E. rewrite Hc in E.
    cbn [map fst]. rewrite map_fst_remove, Hc, krem_firstn_hit by assumption.
    destruct cap as [|n]; [destruct E|]. rewrite Nat.sub_succ, Nat.sub_0_r. reflexivity.
  Qed.
  Lemma insert_recency k v c R : map fst c = firstn cap R -> ~ In k (map fst c) ->
    map fst (lru_insert cap k v c) = firstn cap (k :: krem k R).
  Proof.
    intros Hc Hk. unfold lru_insert.
    assert (Hr : lru_remove k c = c).
    { unfold lru_remove. clear Hc. induction c as [|[k' w] c IH]; [reflexivity|]. cbn [filter fst]. cbn [map fst In] in Hk.
      destruct (key_eqb k k') eqn:E; [apply key_eqb_spec in E; subst; exfalso; auto|]. cbn [negb]. f_equal. apply IH. tauto. }
    rewrite Hr. rewrite Hc in Hk. assert (Hl : length c <= cap).
    { rewrite <- (map_length fst), Hc, firstn_length. lia. }
    cbn [length]. destruct (Nat.ltb_spec cap (S (length c))) as [L|L].
    - assert (length c = cap) by lia. rewrite map_removelast. cbn [map fst].
      rewrite (removelast_firstn _ cap) by (cbn [length]; rewrite map_length; lia).
      rewrite Hc. destruct cap as [|n] eqn:Ec; [reflexivity|]. rewrite !firstn_cons. f_equal.
      rewrite firstn_krem_miss by exact Hk. rewrite firstn_firstn. f_equal. lia.
    - cbn [map fst]. rewrite Hc. destruct cap as [|n] eqn:Ec; [lia|]. rewrite !firstn_cons. f_equal.
      rewrite firstn_krem_miss by exact Hk.
      assert (HR : length R <= n).
      { rewrite <- (map_length fst), Hc, firstn_length in L. lia. }
      rewrite !firstn_all2 by lia. reflexivity.
  Qed.

  Lemma calls_recency h : forall sh R, valid (sh_cache sh) -> sh_poisoned sh = false -> no_cached_panic lower raw h ->
    NoDup (recency R) -> map fst (sh_cache sh) = firstn cap (recency R) ->
    map fst (sh_cache (snd (calls sh h))) = firstn cap (recency (rev (used_keys lower raw h) ++ R)).
  Proof.
    induction h as [|r h IH]; intros sh R Hv Hp Hn HN Hm; [exact Hm|]. cbn [S_Cache.calls].
    destruct (calls_answers [r] sh Hv Hp) as (A1 & A2 & A3).
    { intros r' [<-|[]]. apply Hn. left; reflexivity. }
    cbn [S_Cache.calls map] in A1, A2, A3.
    assert (Hstep : map fst (sh_cache (snd (extract sh r))) =
              firstn cap (recency ((if is_success lower raw r then [key_of_request lower r] else []) ++ R))).
    { unfold M_Cache.extract, is_success, S_Cache.answer in *. destruct (rq_cached r) eqn:Ec; cbn [negb andb fst snd]; [|exact Hm].
      rewrite Hp in *. unfold try_cache in *.
      destruct (lru_get (key_of_request lower r) (sh_cache sh)) as [[v|] c'] eqn:E.
      - destruct (valid_get _ _ _ _ Hv E) as [Hr _]. cbn [key_of_request ck_input ck_kinds ck_alts] in Hr. rewrite Hr.
        cbn [snd sh_cache app recency]. eapply get_recency; [exact HN|exact Hm|exact E].
      - apply get_miss in E. destruct E as [-> Hk]. unfold producer. cbn [key_of_request ck_input].
        destruct (raw (lower (rq_text r)) (rq_kinds r) (rq_alts r)); cbn [snd sh_cache app recency]; [|exact Hm|exact Hm].
        apply insert_recency; assumption. }
    destruct (extract sh r) as [a sh1] eqn:Ex. cbn [fst snd] in *.
    specialize (IH sh1 ((if is_success lower raw r then [key_of_request lower r] else []) ++ R) A2 A3).
    destruct (calls sh1 h) as [l sh2] eqn:Ecalls. cbn [fst snd] in *. rewrite IH.
    - f_equal. f_equal. unfold used_keys. cbn [filter]. destruct (is_success lower raw r); [|reflexivity].
      cbn [map rev]. rewrite <- app_assoc. reflexivity.
    - intros r' H'. apply Hn. right; exact H'.
    - apply recency_NoDup.
    - exact Hstep.
  Qed.

  Lemma recency_split k after before : ~ In k after ->
    exists l1 l2, recency (rev after ++ k :: rev before) = l1 ++ k :: l2 /\ ~ In k l1 /\ (forall a, In a l1 <-> In a after).
  Proof.
    induction after as [|a after IH] using rev_ind; intros Hk.
    - exists [], (krem k (recency (rev before))). repeat split; tauto.
    - rewrite in_app_iff in Hk. destruct IH as (l1 & l2 & E & Hn & Hi); [tauto|].
      rewrite rev_app_distr. cbn [rev app recency]. rewrite E. rewrite filter_app. cbn [filter].
      assert (Ha : a <> k) by (intros ->; apply Hk; right; left; reflexivity).
      replace (key_eqb a k) with false by (symmetry; apply key_eqb_false; exact Ha). cbn [negb].
      exists (a :: krem a l1), (krem a l2). split; [reflexivity|]. split.
      + intros [H|H]; [congruence|]. apply krem_In in H. tauto.
      + intros b. cbn [In]. rewrite krem_In, Hi, in_app_iff. cbn [In]. destruct (key_dec a b); intuition congruence.
  Qed.

  Lemma In_firstn_split {A} (l1 l2 : list A) k n : ~ In k l1 -> NoDup (l1 ++ k :: l2) ->
    In k (firstn n (l1 ++ k :: l2)) <-> length l1 < n.
  Proof.
    intros Hk HN. rewrite firstn_app, in_app_iff. split.
    - intros [H|H]; [apply firstn_In in H; contradiction|].
      destruct (n - length l1) eqn:E; [destruct H|lia].
    - intros H. right. destruct (n - length l1) eqn:E; [lia|]. left. reflexivity.
  Qed.

  Lemma recently_used_spec used k : In k (firstn cap (recency (rev used))) <-> recently_used cap used k.
  Proof.
    assert (Hlen : forall l1 (after : list CacheKey), NoDup l1 -> (forall a, In a l1 <-> In a after) ->
               length l1 = length (nodup key_dec after)).
    { intros l1 after HN Hi. apply Nat.le_antisymm; apply NoDup_incl_length.
      - exact HN.
      - intros a Ha. apply nodup_In, Hi, Ha.
      - apply NoDup_nodup.
      - intros a Ha. apply Hi. apply nodup_In in Ha. exact Ha. }
    assert (Hsplit : forall l : list CacheKey, In k l -> exists before after, l = before ++ k :: after /\ ~ In k after).
    { induction l as [|a l IH]; [intros []|]. intros Hin. destruct (in_dec key_dec k l) as [Hl|Hl].
      - destruct (IH Hl) as (b & e & -> & He). exists (a :: b), e. auto.
      - destruct Hin as [->|Hin]; [|contradiction]. exists [], l. auto. }
    split.
    - intros H. pose proof (firstn_In _ _ _ H) as H'. rewrite recency_In, <- in_rev in H'.
      destruct (Hsplit used H') as (before & after & -> & Ha). exists before, after. split; [reflexivity|]. split; [exact Ha|].
      rewrite rev_app_distr in H. cbn [rev] in H. rewrite <- app_assoc in H. cbn [app] in H.
      destruct (recency_split k after before Ha) as (l1 & l2 & E & Hk & Hi).
      pose proof (recency_NoDup (rev after ++ k :: rev before)) as HN. rewrite E in H, HN.
      apply In_firstn_split in H; [|exact Hk|exact HN]. rewrite <- (Hlen l1 after); [exact H| |exact Hi].
      apply NoDup_app_remove_r in HN. exact HN.
    - intros (before & after & -> & Ha & Hl). rewrite rev_app_distr. cbn [rev]. rewrite <- app_assoc. cbn [app].
      destruct (recency_split k after before Ha) as (l1 & l2 & E & Hk & Hi).
      pose proof (recency_NoDup (rev after ++ k :: rev before)) as HN. rewrite E in *.
      apply In_firstn_split; [exact Hk|exact HN|]. rewrite (Hlen l1 after); [exact Hl| |exact Hi].
      apply NoDup_app_remove_r in HN. exact HN.
  Qed.

  Lemma cache_contents h : no_cached_panic lower raw h ->
    let c := sh_cache (snd (calls fresh h)) in
    length c <= cap /\ NoDup (map fst c) /\
    (forall k, In k (map fst c) <-> recently_used cap (used_keys lower raw h) k) /\
    (forall k v, In (k, v) c -> raw (ck_input k) (ck_kinds k) (ck_alts k) = Ok v).
  Proof.
    intros Hn c. assert (E : map fst c = firstn cap (recency (rev (used_keys lower raw h)))).
    { unfold c. rewrite (calls_recency h fresh []); [rewrite app_nil_r; reflexivity|apply valid_nil|reflexivity|exact Hn|constructor|].
      cbn [recency]. rewrite firstn_nil. reflexivity. }
    split; [|split; [|split]].
    - rewrite <- (map_length fst), E, firstn_length. lia.
    - rewrite E. pose proof (recency_NoDup (rev (used_keys lower raw h))) as HN.
      rewrite <- (firstn_skipn cap) in HN. apply NoDup_app_remove_r in HN. exact HN.
    - intros k. rewrite E. apply recently_used_spec.
    - apply calls_valid, valid_nil.
  Qed.
End WithValues.

(** A request whose key is in the cache does not call the parser. *)
Lemma hit_no_call {V} lower (raw raw' : str -> option (list str) -> nat -> outcome V) cap h r :
  no_cached_panic lower raw h -> rq_cached r = true ->
  recently_used cap (used_keys lower raw h) (key_of_request lower r) ->
  let sh := snd (calls lower raw cap fresh h) in
  extract lower raw' cap sh r = extract lower raw cap sh r /\ fst (extract lower raw' cap sh r) = answer lower raw r.
Proof.
  intros Hn Hc Hu sh. destruct (cache_contents lower raw cap h Hn) as (_ & _ & Hk & Hv). apply Hk in Hu.
  destruct (calls_answers lower raw cap h fresh (valid_nil raw) eq_refl Hn) as (_ & _ & Hp). fold sh in Hu, Hv, Hp.
  unfold extract. rewrite Hc, Hp. cbn [negb]. unfold try_cache, lru_get.
  destruct (lru_find (key_of_request lower r) (sh_cache sh)) as [v|] eqn:E.
  - cbn [fst snd]. split; [reflexivity|]. apply lru_find_In in E. apply Hv in E. symmetry. exact E.
  - apply lru_find_None in E. contradiction.
Qed.

(** A request whose key is not in the cache does: with a parser that fails, it fails. *)
Lemma miss_calls {V} lower (raw raw' : str -> option (list str) -> nat -> outcome V) cap h r :
  no_cached_panic lower raw h -> rq_cached r = true ->
  ~ recently_used cap (used_keys lower raw h) (key_of_request lower r) ->
  fst (extract lower raw' cap (snd (calls lower raw cap fresh h)) r) = answer lower raw' r.
Proof.
  intros Hn Hc Hu. set (sh := snd _). destruct (cache_contents lower raw cap h Hn) as (_ & _ & Hk & _).
  rewrite <- Hk in Hu.
  destruct (calls_answers lower raw cap h fresh (valid_nil raw) eq_refl Hn) as (_ & _ & Hp). fold sh in Hu, Hp.
  unfold extract. rewrite Hc, Hp. cbn [negb]. unfold try_cache, lru_get.
  destruct (lru_find (key_of_request lower r) (sh_cache sh)) as [v|] eqn:E.
  - exfalso. apply Hu. apply lru_find_In in E. apply (in_map fst) in E. exact E.
  - unfold producer, answer. cbn [key_of_request ck_input]. destruct (raw' _ _ _); reflexivity.
Qed.
