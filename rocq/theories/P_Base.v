(** General lemmas about the vocabulary of [Base] and [Sorting]. *)
From Coq Require Import List NArith ZArith Bool Lia Permutation Sorted Arith.
From Verif Require Import Base Sorting.
Import ListNotations.

Lemma bind_ok {A B} (m : outcome A) (k : A -> outcome B) b :
  bind m k = Ok b -> exists a, m = Ok a /\ k a = Ok b.
Proof. destruct m; simpl; intros H; try discriminate. eauto. Qed.

Ltac inv H := inversion H; subst; clear H.
Ltac bind_inv H :=
  let a := fresh "a" in let E := fresh "E" in
  apply bind_ok in H; destruct H as (a & E & H).

Lemma list_eqb_spec {A} (eqb : A -> A -> bool)
  (Heqb : forall x y, eqb x y = true <-> x = y) :
  forall l l', list_eqb eqb l l' = true <-> l = l'.
Proof.
  induction l as [|x l IH]; destruct l' as [|y l']; simpl; split; intros H;
    try reflexivity; try discriminate.
  - apply andb_true_iff in H as [H1 H2]. apply Heqb in H1. apply IH in H2. congruence.
  - inversion H; subst. apply andb_true_iff. split; [apply Heqb | apply IH]; reflexivity.
Qed.

Lemma str_eqb_spec s t : str_eqb s t = true <-> s = t.
Proof. apply list_eqb_spec. intros. apply N.eqb_eq. Qed.

Lemma str_eqb_refl s : str_eqb s s = true.
Proof. apply str_eqb_spec. reflexivity. Qed.

Lemma str_eqb_neq s t : str_eqb s t = false <-> s <> t.
Proof.
  split; intros H.
  - intros E. apply str_eqb_spec in E. congruence.
  - destruct (str_eqb s t) eqn:E; auto. apply str_eqb_spec in E. contradiction.
Qed.

Lemma str_eq_dec (s t : str) : {s = t} + {s <> t}.
Proof.
  destruct (str_eqb s t) eqn:E.
  - left. apply str_eqb_spec. exact E.
  - right. apply str_eqb_neq. exact E.
Qed.

Lemma range_eqb_spec a b : range_eqb a b = true <-> a = b.
Proof.
  destruct a as [a1 a2], b as [b1 b2]. unfold range_eqb, rstart, rend. simpl.
  rewrite andb_true_iff, !Nat.eqb_eq. split; [intros [-> ->]; auto | inversion 1; auto].
Qed.

Lemma memb_spec {A} (eqb : A -> A -> bool)
  (Heqb : forall x y, eqb x y = true <-> x = y) x l :
  memb eqb x l = true <-> In x l.
Proof.
  unfold memb. rewrite existsb_exists. split.
  - intros (y & Hy & E). apply Heqb in E. subst. exact Hy.
  - intros H. exists x. split; auto. apply Heqb. reflexivity.
Qed.

Lemma smem_spec x l : smem x l = true <-> In x l.
Proof. apply memb_spec. apply str_eqb_spec. Qed.

Lemma smem_false x l : smem x l = false <-> ~ In x l.
Proof.
  rewrite <- smem_spec. destruct (smem x l); split; congruence.
Qed.

(** ** mapM *)
Lemma mapM_ok_length {A B} (f : A -> outcome B) l r :
  mapM f l = Ok r -> length r = length l.
Proof.
  revert r. induction l as [|x l IH]; simpl; intros r H.
  - inv H. reflexivity.
  - bind_inv H. bind_inv H. inv H. simpl. f_equal. eauto.
Qed.

Lemma mapM_ok_Forall2 {A B} (f : A -> outcome B) l r :
  mapM f l = Ok r <-> Forall2 (fun x y => f x = Ok y) l r.
Proof.
  split.
  - revert r. induction l as [|x l IH]; simpl; intros r H.
    + inv H. constructor.
    + bind_inv H. bind_inv H. inv H. constructor; auto.
  - induction 1; simpl; auto. rewrite H. simpl. rewrite IHForall2. reflexivity.
Qed.

Lemma mapM_ext {A B} (f g : A -> outcome B) l :
  (forall x, In x l -> f x = g x) -> mapM f l = mapM g l.
Proof.
  induction l as [|x l IH]; simpl; intros H; auto.
  rewrite (H x) by auto. rewrite IH; auto.
Qed.

Lemma mapM_not_panic {A B} (f : A -> outcome B) l :
  (forall x, In x l -> f x <> Panic) -> mapM f l <> Panic.
Proof.
  induction l as [|x l IH]; simpl; intros H; try discriminate.
  destruct (f x) eqn:E; simpl; try discriminate.
  - destruct (mapM f l) eqn:E2; simpl; try discriminate. intros _. apply IH; auto.
  - intros _. apply (H x); auto.
Qed.

(** ** hash maps *)
Section Assoc.
  Context {K V : Type} (eqb : K -> K -> bool).
  Hypothesis Heqb : forall x y, eqb x y = true <-> x = y.

  Lemma eqb_refl' k : eqb k k = true.
  Proof. apply Heqb. reflexivity. Qed.

  Lemma eqb_false k k' : eqb k k' = false <-> k <> k'.
  Proof.
    split; intros H.
    - intros E. apply Heqb in E. congruence.
    - destruct (eqb k k') eqn:E; auto. apply Heqb in E. contradiction.
  Qed.

  Lemma hget_In k v (m : list (K * V)) : hget eqb k m = Some v -> In (k, v) m.
  Proof.
    induction m as [|[k' v'] m IH]; simpl; try discriminate.
    destruct (eqb k k') eqn:E; intros H.
    - inv H. apply Heqb in E. subst. auto.
    - right. auto.
  Qed.

  Lemma hget_None k (m : list (K * V)) : hget eqb k m = None <-> ~ In k (hkeys m).
  Proof.
    induction m as [|[k' v'] m IH]; simpl.
    - split; auto.
    - destruct (eqb k k') eqn:E.
      + apply Heqb in E. subst. split; [discriminate | intros H; exfalso; auto].
      + rewrite IH. apply eqb_false in E. split.
        * intros H [H1|H1]; [subst; contradiction|]. apply H. exact H1.
        * intros H H1. apply H. auto.
  Qed.

  Lemma hget_Some_key k v (m : list (K * V)) : hget eqb k m = Some v -> In k (hkeys m).
  Proof.
    intros H. apply hget_In in H. unfold hkeys. apply in_map_iff. exists (k, v). auto.
  Qed.

  Lemma hget_NoDup k v (m : list (K * V)) :
    NoDup (hkeys m) -> In (k, v) m -> hget eqb k m = Some v.
  Proof.
    induction m as [|[k' v'] m IH]; simpl; intros ND H; try contradiction.
    inv ND. destruct H as [H|H].
    - inv H. rewrite eqb_refl'. reflexivity.
    - destruct (eqb k k') eqn:E.
      + apply Heqb in E. subst. exfalso. apply H2. unfold hkeys.
        apply in_map_iff. exists (k', v). auto.
      + auto.
  Qed.

  Lemma hget_insert_eq k v (m : list (K * V)) : hget eqb k (hinsert eqb k v m) = Some v.
  Proof.
    induction m as [|[k' v'] m IH]; simpl.
    - rewrite eqb_refl'. reflexivity.
    - destruct (eqb k k') eqn:E; simpl; rewrite E; auto.
  Qed.

  Lemma hget_insert_neq k k' v (m : list (K * V)) :
    k <> k' -> hget eqb k (hinsert eqb k' v m) = hget eqb k m.
  Proof.
    intros N. induction m as [|[k2 v2] m IH]; simpl.
    - apply eqb_false in N. rewrite N. reflexivity.
    - destruct (eqb k' k2) eqn:E; simpl.
      + apply Heqb in E. subst. apply eqb_false in N. rewrite N. reflexivity.
      + destruct (eqb k k2); auto.
  Qed.

  Lemma hkeys_insert k v (m : list (K * V)) x :
    In x (hkeys (hinsert eqb k v m)) <-> x = k \/ In x (hkeys m).
  Proof.
    induction m as [|[k2 v2] m IH]; simpl.
    - intuition.
    - destruct (eqb k k2) eqn:E; simpl.
      + apply Heqb in E. subst. intuition.
      + rewrite IH. intuition.
  Qed.

  Lemma hinsert_NoDup k v (m : list (K * V)) :
    NoDup (hkeys m) -> NoDup (hkeys (hinsert eqb k v m)).
  Proof.
    induction m as [|[k2 v2] m IH]; simpl; intros H.
    - constructor; auto.
    - inv H. destruct (eqb k k2) eqn:E; simpl.
      + constructor; auto.
      + constructor; auto. fold (hkeys (hinsert eqb k v m)). rewrite hkeys_insert. intros [H|H].
        * subst. rewrite eqb_refl' in E. discriminate.
        * contradiction.
  Qed.

  Lemma hinsert_app_fresh k v (m : list (K * V)) :
    ~ In k (hkeys m) -> hinsert eqb k v m = m ++ [(k, v)].
  Proof.
    induction m as [|[k2 v2] m IH]; simpl; intros H; auto.
    destruct (eqb k k2) eqn:E.
    - apply Heqb in E. subst. exfalso. auto.
    - rewrite IH; auto.
  Qed.

  Lemma fold_insert_NoDup (l : list (K * V)) m :
    NoDup (hkeys m) ->
    NoDup (hkeys (fold_left (fun m kv => hinsert eqb (fst kv) (snd kv) m) l m)).
  Proof.
    revert m. induction l as [|[k v] l IH]; simpl; intros m H; auto.
    apply IH. apply hinsert_NoDup. exact H.
  Qed.

  Lemma hcollect_NoDup (l : list (K * V)) : NoDup (hkeys (hcollect eqb l)).
  Proof. apply fold_insert_NoDup. constructor. Qed.

  Lemma fold_insert_keys (l : list (K * V)) m x :
    In x (hkeys (fold_left (fun m kv => hinsert eqb (fst kv) (snd kv) m) l m)) <->
    In x (hkeys l) \/ In x (hkeys m).
  Proof.
    revert m. induction l as [|[k v] l IH]; simpl; intros m.
    - intuition.
    - rewrite IH, hkeys_insert. intuition.
  Qed.

  Lemma hcollect_keys (l : list (K * V)) x :
    In x (hkeys (hcollect eqb l)) <-> In x (hkeys l).
  Proof. unfold hcollect. rewrite fold_insert_keys. simpl. intuition. Qed.

  (** [hcollect] keeps the last value of each key. *)
  Lemma hget_fold_insert (l : list (K * V)) m k :
    hget eqb k (fold_left (fun m kv => hinsert eqb (fst kv) (snd kv) m) l m) =
    match hget eqb k (rev l) with Some v => Some v | None => hget eqb k m end.
  Proof.
    revert m. induction l as [|[k' v'] l IH]; simpl; intros m; auto.
    rewrite IH. clear IH.
    assert (Happ : forall (a b : list (K*V)), hget eqb k (a ++ b) =
              match hget eqb k a with Some v => Some v | None => hget eqb k b end).
    { induction a as [|[ka va] a IHa]; simpl; intros; auto. destruct (eqb k ka); auto. }
    rewrite Happ. destruct (hget eqb k (rev l)); auto. simpl.
    destruct (eqb k k') eqn:E.
    - apply Heqb in E. subst. apply hget_insert_eq.
    - apply hget_insert_neq. apply eqb_false. exact E.
  Qed.

  Lemma hget_hcollect (l : list (K * V)) k :
    hget eqb k (hcollect eqb l) = hget eqb k (rev l).
  Proof. unfold hcollect. rewrite hget_fold_insert. simpl. destruct (hget eqb k (rev l)); auto. Qed.

  Lemma hcollect_NoDup_id (l : list (K * V)) : NoDup (hkeys l) -> hcollect eqb l = l.
  Proof.
    unfold hcollect. intros ND.
    assert (G : forall (l m : list (K * V)), NoDup (hkeys (m ++ l)) ->
              fold_left (fun m kv => hinsert eqb (fst kv) (snd kv) m) l m = m ++ l).
    { clear l ND. induction l as [|[k v] l IH]; simpl; intros m ND.
      - rewrite app_nil_r. reflexivity.
      - rewrite hinsert_app_fresh.
        + rewrite IH.
          * rewrite <- app_assoc. reflexivity.
          * rewrite <- app_assoc. exact ND.
        + unfold hkeys in *. rewrite map_app in ND. simpl in ND.
          apply NoDup_remove_2 in ND. intros H. apply ND. apply in_or_app. auto. }
    apply (G l []). exact ND.
  Qed.

  Lemma hget_perm (m m' : list (K * V)) k :
    NoDup (hkeys m) -> Permutation m m' -> hget eqb k m = hget eqb k m'.
  Proof.
    intros ND P.
    assert (ND' : NoDup (hkeys m')).
    { unfold hkeys in *. eapply Permutation_NoDup; [|exact ND]. apply Permutation_map. exact P. }
    destruct (hget eqb k m) eqn:E.
    - symmetry. apply hget_NoDup; auto. apply hget_In in E. eapply Permutation_in; eauto.
    - symmetry. apply hget_None. apply hget_None in E. intros H. apply E.
      unfold hkeys in *. eapply Permutation_in; [|exact H].
      apply Permutation_sym. apply Permutation_map. exact P.
  Qed.
End Assoc.

Lemma sget_In {V} k v (m : list (str * V)) : sget k m = Some v -> In (k, v) m.
Proof. apply hget_In. apply str_eqb_spec. Qed.

Lemma sget_None {V} k (m : list (str * V)) : sget k m = None <-> ~ In k (hkeys m).
Proof. apply hget_None. apply str_eqb_spec. Qed.

Lemma sget_NoDup {V} k v (m : list (str * V)) :
  NoDup (hkeys m) -> In (k, v) m -> sget k m = Some v.
Proof. apply hget_NoDup. apply str_eqb_spec. Qed.

Lemma reorder_perm o {A} (l : list A) : Permutation l (reorder o l).
Proof. apply ho_perm. Qed.

Lemma reorder_In o {A} (l : list A) x : In x (reorder o l) <-> In x l.
Proof.
  split; apply Permutation_in; [apply Permutation_sym|]; apply reorder_perm.
Qed.

(** ** Stable sort *)
Section Isort.
  Context {A : Type} (leb : A -> A -> bool).

  Lemma insert_perm x l : Permutation (x :: l) (insert leb x l).
  Proof.
    induction l as [|y l IH]; simpl; auto.
    destruct (leb x y); auto.
    rewrite perm_swap. constructor. exact IH.
  Qed.

  Lemma isort_perm l : Permutation l (isort leb l).
  Proof.
    induction l as [|x l IH]; simpl; auto.
    rewrite <- insert_perm. constructor. exact IH.
  Qed.

  Lemma isort_In x l : In x (isort leb l) <-> In x l.
  Proof.
    split; apply Permutation_in; [apply Permutation_sym|]; apply isort_perm.
  Qed.

  Lemma isort_length l : length (isort leb l) = length l.
  Proof. symmetry. apply Permutation_length, isort_perm. Qed.

  (** Sortedness under totality and transitivity on the elements of the list. *)
  Lemma insert_sorted (P : A -> Prop) x l :
    (forall a b, P a -> P b -> leb a b = true \/ leb b a = true) ->
    (forall a b c, P a -> P b -> P c -> leb a b = true -> leb b c = true -> leb a c = true) ->
    P x -> Forall P l ->
    StronglySorted (fun a b => leb a b = true) l ->
    StronglySorted (fun a b => leb a b = true) (insert leb x l).
  Proof.
    intros Htot Htr Px Pl. induction l as [|y l IH]; simpl; intros S.
    - constructor; constructor.
    - inv Pl. inv S. destruct (leb x y) eqn:E.
      + constructor; [constructor; auto|]. constructor; auto.
        rewrite Forall_forall in *. intros z Hz. eapply Htr; eauto.
      + constructor.
        * apply IH; auto.
        * rewrite Forall_forall. intros z Hz.
          apply (Permutation_in _ (Permutation_sym (insert_perm x l))) in Hz.
          destruct Hz as [<-|Hz].
          -- destruct (Htot x y) as [H|H]; auto. congruence.
          -- rewrite Forall_forall in H4. auto.
  Qed.

  Lemma isort_sorted (P : A -> Prop) l :
    (forall a b, P a -> P b -> leb a b = true \/ leb b a = true) ->
    (forall a b c, P a -> P b -> P c -> leb a b = true -> leb b c = true -> leb a c = true) ->
    Forall P l ->
    StronglySorted (fun a b => leb a b = true) (isort leb l).
  Proof.
    intros Htot Htr. induction l as [|x l IH]; simpl; intros F.
    - constructor.
    - inv F. apply insert_sorted with (P := P); [exact Htot|exact Htr|assumption| |apply IH; assumption].
      rewrite Forall_forall in *. intros z Hz. rewrite isort_In in Hz. auto.
  Qed.

  Lemma insert_sorted_id x l :
    Forall (fun y => leb x y = true) l -> insert leb x l = x :: l.
  Proof. destruct l as [|y l]; simpl; auto. intros F. inv F. rewrite H1. reflexivity. Qed.

  (** Sorting a sorted list changes nothing. *)
  Lemma isort_id l :
    StronglySorted (fun a b => leb a b = true) l -> isort leb l = l.
  Proof.
    induction 1; simpl; auto. rewrite IHStronglySorted. apply insert_sorted_id. exact H0.
  Qed.

  (** Stability: the elements satisfying a predicate closed under equivalence keep
      their relative order. *)
  Lemma filter_insert (p : A -> bool) x l :
    (forall y, In y l -> p x = true -> p y = true -> leb x y = true) ->
    filter p (insert leb x l) = if p x then x :: filter p l else filter p l.
  Proof.
    induction l as [|y l IH]; simpl; intros H.
    - destruct (p x); reflexivity.
    - destruct (leb x y) eqn:E; simpl.
      + destruct (p x); reflexivity.
      + rewrite IH by auto. destruct (p x) eqn:Px, (p y) eqn:Py; auto.
        exfalso. rewrite (H y) in E; auto. discriminate.
  Qed.

  Lemma isort_stable (p : A -> bool) l :
    (forall x y, In x l -> In y l -> p x = true -> p y = true -> leb x y = true) ->
    filter p (isort leb l) = filter p l.
  Proof.
    induction l as [|x l IH]; simpl; intros H; auto.
    rewrite filter_insert.
    - rewrite IH by auto. reflexivity.
    - intros y Hy Px Py. apply H; auto. right. rewrite isort_In in Hy. exact Hy.
  Qed.

  Lemma isort_NoDup l : NoDup l -> NoDup (isort leb l).
  Proof. apply Permutation_NoDup. apply isort_perm. Qed.
End Isort.

Lemma isort_ext {A} (leb leb' : A -> A -> bool) l :
  (forall a b, In a l -> In b l -> leb a b = leb' a b) -> isort leb l = isort leb' l.
Proof.
  induction l as [|x l IH]; simpl; intros H; auto.
  rewrite IH by auto.
  assert (G : forall m, (forall y, In y m -> In y l) -> insert leb x m = insert leb' x m).
  { induction m as [|y m IHm]; simpl; intros Hm; auto.
    rewrite (H x y) by auto. rewrite IHm by auto. reflexivity. }
  apply G. intros y Hy. rewrite isort_In in Hy. exact Hy.
Qed.

Lemma insert_map {A B} (f : A -> B) (lebA : A -> A -> bool) (lebB : B -> B -> bool) x l :
  (forall a b, lebB (f a) (f b) = lebA a b) ->
  map f (insert lebA x l) = insert lebB (f x) (map f l).
Proof.
  intros H. induction l as [|y l IH]; simpl; auto.
  rewrite H. destruct (lebA x y); simpl; auto. rewrite IH. reflexivity.
Qed.

Lemma isort_map {A B} (f : A -> B) (lebA : A -> A -> bool) (lebB : B -> B -> bool) l :
  (forall a b, lebB (f a) (f b) = lebA a b) ->
  map f (isort lebA l) = isort lebB (map f l).
Proof.
  intros H. induction l as [|x l IH]; simpl; auto.
  rewrite (insert_map f lebA lebB) by auto. rewrite IH. reflexivity.
Qed.

Section SortKey.
  Context {A : Type} (key : A -> Z).

  Lemma sort_by_key_perm l : Permutation l (sort_by_key key l).
  Proof. apply isort_perm. Qed.

  Lemma sort_by_key_In x l : In x (sort_by_key key l) <-> In x l.
  Proof. apply isort_In. Qed.

  Lemma sort_by_key_sorted l :
    StronglySorted (fun a b => (key a <= key b)%Z) (sort_by_key key l).
  Proof.
    assert (S : StronglySorted (fun a b => Z.leb (key a) (key b) = true) (sort_by_key key l)).
    { apply isort_sorted with (P := fun _ => True).
      - intros a b _ _. rewrite !Z.leb_le. lia.
      - intros a b c _ _ _. rewrite !Z.leb_le. lia.
      - apply Forall_forall. auto. }
    induction S; constructor; auto.
    rewrite Forall_forall in *. intros y Hy. apply Z.leb_le. auto.
  Qed.

  Lemma sort_by_key_id l :
    StronglySorted (fun a b => (key a <= key b)%Z) l -> sort_by_key key l = l.
  Proof.
    intros S. apply isort_id. induction S; constructor; auto.
    rewrite Forall_forall in *. intros y Hy. apply Z.leb_le. auto.
  Qed.
End SortKey.

(** A strictly sorted list is determined by its elements. *)
Lemma sorted_perm_unique {A} (lt : A -> A -> Prop) l l' :
  (forall a, ~ lt a a) -> (forall a b, lt a b -> lt b a -> False) ->
  StronglySorted lt l -> StronglySorted lt l' -> Permutation l l' -> l = l'.
Proof.
  intros Hirr Hasym. revert l'. induction l as [|x l IH]; intros l' S S' P.
  - apply Permutation_nil in P. auto.
  - destruct l' as [|y l'].
    + apply Permutation_sym, Permutation_nil in P. discriminate.
    + inv S. inv S'.
      assert (x = y).
      { assert (Hx : In x (y :: l')) by (eapply Permutation_in; [exact P|left; auto]).
        assert (Hy : In y (x :: l)) by (eapply Permutation_in; [apply Permutation_sym, P|left; auto]).
        destruct Hx as [Hx|Hx]; auto. destruct Hy as [Hy|Hy]; auto.
        rewrite Forall_forall in H2, H4. exfalso. eapply Hasym; eauto. }
      subst. f_equal. apply IH; auto. eapply Permutation_cons_inv. exact P.
Qed.

(** ** Strings *)
Lemma substring_full s : substring s (0, length s) = s.
Proof. unfold substring, rlen, rstart, rend. simpl. rewrite Nat.sub_0_r. apply firstn_all. Qed.

Lemma substring_length s r :
  rend r <= length s -> length (substring s r) = rlen r.
Proof.
  intros H. unfold substring, rlen in *. rewrite firstn_length, skipn_length. lia.
Qed.

Lemma substring_app_skip a b i j :
  substring (a ++ b) (length a + i, length a + j) = substring b (i, j).
Proof.
  unfold substring, rlen, rstart, rend. simpl.
  rewrite skipn_app. rewrite skipn_all2 by lia. simpl.
  replace (length a + i - length a) with i by lia.
  replace (length a + j - (length a + i)) with (j - i) by lia. reflexivity.
Qed.

Lemma substring_app_left a b i j :
  j <= length a -> substring (a ++ b) (i, j) = substring a (i, j).
Proof.
  intros H. unfold substring, rlen, rstart, rend. simpl.
  destruct (Nat.le_gt_cases i j).
  - rewrite skipn_app. rewrite firstn_app.
    rewrite skipn_length.
    replace (j - i - (length a - i)) with 0 by lia. simpl.
    rewrite app_nil_r. reflexivity.
  - replace (j - i) with 0 by lia. reflexivity.
Qed.

Lemma substring_split s i j k :
  i <= j -> j <= k -> substring s (i, k) = substring s (i, j) ++ substring s (j, k).
Proof.
  intros H1 H2. unfold substring, rlen, rstart, rend. simpl.
  replace (k - i) with ((j - i) + (k - j)) by lia.
  revert i j k H1 H2. induction s as [|c s IH]; intros.
  - rewrite !skipn_nil, !firstn_nil. reflexivity.
  - destruct i.
    + simpl. rewrite !Nat.sub_0_r. clear IH H1 H2. revert s c k.
      induction j; intros s c k; simpl; auto. f_equal.
      destruct s as [|d s]; [rewrite skipn_nil, !firstn_nil; auto|].
      specialize (IHj s d (k - 1)).
      replace (k - S j) with (k - 1 - j) by lia. exact IHj.
    + destruct j; [lia|]. destruct k; [lia|]. simpl. apply IH; lia.
Qed.

Lemma substring_suffix s i : substring s (i, length s) = skipn i s.
Proof.
  unfold substring, rlen, rstart, rend. simpl. apply firstn_all2. rewrite skipn_length. lia.
Qed.

Lemma substring_nth s r i d :
  i < rlen r -> nth i (substring s r) d = nth (rstart r + i) s d.
Proof.
  intros H. unfold substring.
  destruct (Nat.lt_ge_cases (rstart r + i) (length s)) as [L|L].
  - rewrite <- (firstn_skipn (rlen r) (skipn (rstart r) s)) at 1.
    assert (nth i (skipn (rstart r) s) d = nth (rstart r + i) s d).
    { rewrite <- (firstn_skipn (rstart r) s) at 2.
      rewrite app_nth2; rewrite firstn_length; [|lia].
      f_equal. lia. }
    rewrite <- H0. rewrite firstn_skipn.
    rewrite <- (firstn_skipn (rlen r) (skipn (rstart r) s)) at 2.
    rewrite app_nth1; auto. rewrite firstn_length, skipn_length. lia.
  - rewrite !nth_overflow; auto. rewrite firstn_length, skipn_length. lia.
Qed.

Lemma utf8_len_pos c : 1 <= utf8_len c.
Proof. unfold utf8_len. destruct (c <? 128)%N, (c <? 2048)%N, (c <? 65536)%N; lia. Qed.

(** ** unique *)
Section Unique.
  Context {A : Type} (eqb : A -> A -> bool).
  Hypothesis Heqb : forall x y, eqb x y = true <-> x = y.

  Lemma unique_aux_In seen l x :
    In x (unique_aux eqb seen l) <-> In x l /\ ~ In x seen.
  Proof.
    revert seen. induction l as [|y l IH]; simpl; intros seen.
    - intuition.
    - destruct (memb eqb y seen) eqn:E.
      + apply (memb_spec eqb Heqb) in E. rewrite IH. split; [intuition|].
        intros [[->|H] N]; intuition.
      + assert (~ In y seen) by (rewrite <- (memb_spec eqb Heqb); congruence).
        simpl. rewrite IH. simpl.
        assert (D : x = y \/ x <> y).
        { destruct (eqb x y) eqn:Ex; [left; apply Heqb; auto|right; apply (eqb_false eqb Heqb); auto]. }
        split.
        * intros [->|[H1 H2]]; intuition.
        * intros [[->|H1] H2]; auto. destruct D as [->|D]; auto. right. intuition.
  Qed.

  Lemma unique_aux_NoDup seen l : NoDup (unique_aux eqb seen l).
  Proof.
    revert seen. induction l as [|y l IH]; simpl; intros seen; [constructor|].
    destruct (memb eqb y seen); auto. constructor; auto.
    rewrite unique_aux_In. simpl. intuition.
  Qed.

  Lemma unique_In l x : In x (unique eqb l) <-> In x l.
  Proof. unfold unique. rewrite unique_aux_In. simpl. intuition. Qed.

  Lemma unique_NoDup l : NoDup (unique eqb l).
  Proof. apply unique_aux_NoDup. Qed.
End Unique.

(** ** Machine integers *)
Lemma as_i16_id z : (-32768 <= z < 32768)%Z -> as_i16 z = z.
Proof.
  intros H. unfold as_i16, wrap. change (2 ^ (16 - 1))%Z with 32768%Z.
  change (2 ^ 16)%Z with 65536%Z. rewrite Z.mod_small; lia.
Qed.

Lemma as_i32_id z : (-2147483648 <= z < 2147483648)%Z -> as_i32 z = z.
Proof.
  intros H. unfold as_i32, wrap. change (2 ^ (32 - 1))%Z with 2147483648%Z.
  change (2 ^ 32)%Z with 4294967296%Z. rewrite Z.mod_small; lia.
Qed.

Lemma as_usize_nat n : (Z.of_nat n < 2 ^ 64)%Z -> as_usize (Z.of_nat n) = n.
Proof. intros H. unfold as_usize. rewrite Z.mod_small; lia. Qed.
