(** Proofs for C76. *)
From Coq Require Import String List NArith ZArith Bool Arith Lia Permutation.
From Verif Require Import Base F32 M_Types M_Det M_Lookup M_Feat M_Features M_Filler M_Res M_Json M_Load M_Inject S_Load S_Format P_Base.
Import ListNotations.
Local Open Scope nat_scope.

(** Panics never happen; errors are what remains. *)
Definition sound {A} (d : decoder A) (R : meant A) : Prop :=
  (forall j a, d j = Ok a -> R j a) /\ (forall j a, R j a -> exists a', d j = Ok a') /\ (forall j, d j <> Panic).
Lemma sound_exact {A} (d : decoder A) R : sound d R -> reads_exactly d R.
Proof.
  intros (H1 & H2 & H3). split; [exact H1|]. split; [exact H2|]. intros j Hj.
  destruct (d j) as [a|e|] eqn:E; [exfalso; eapply Hj, H1, E|eauto|exfalso; eapply H3, E].
Qed.

(** ** Values *)
Lemma text_sound : sound d_str text.
Proof.
  split; [|split].
  - intros j a H. destruct j; inv H. reflexivity.
  - intros j a ->. eexists; reflexivity.
  - intros []; discriminate.
Qed.
Lemma flag_sound : sound d_bool flag.
Proof.
  split; [|split].
  - intros j a H. destruct j; inv H. reflexivity.
  - intros j a ->. eexists; reflexivity.
  - intros []; discriminate.
Qed.
Lemma int_iff lo hi j z : d_int lo hi j = Ok z <-> whole lo hi j z.
Proof.
  unfold d_int, whole. destruct j as [| |z'| | | |]; try (split; [discriminate|intros [H _]; discriminate]).
  destruct (Z.leb_spec lo z'), (Z.ltb_spec z' hi); cbn [andb]; split; intros H'; try discriminate;
    try (inv H'; split; [reflexivity|lia]); destruct H' as [H' ?]; inv H'; try lia; reflexivity.
Qed.
Lemma int_no_panic lo hi j : d_int lo hi j <> Panic.
Proof. unfold d_int. destruct j; try discriminate. destruct ((lo <=? z) && (z <? hi))%Z; discriminate. Qed.
Lemma whole_sound lo hi : sound (d_int lo hi) (whole lo hi).
Proof.
  split; [|split].
  - intros j a. apply int_iff.
  - intros j a H. exists a. apply int_iff, H.
  - intros j. apply int_no_panic.
Qed.
Lemma natural_sound hi : sound (fun j => let* z := d_int 0 hi j in Ok (Z.to_nat z)) (natural hi).
Proof.
  split; [|split].
  - intros j a H. bind_inv H. inv H. apply int_iff in E. destruct E as [-> E]. split; [f_equal; lia|lia].
  - intros j a [-> H]. assert (E : d_int 0 hi (JNum (Z.of_nat a)) = Ok (Z.of_nat a)).
    { apply int_iff. split; [reflexivity|lia]. }
    rewrite E. eexists; reflexivity.
  - intros j. pose proof (int_no_panic 0 hi j). destruct (d_int 0 hi j); cbn [bind]; congruence.
Qed.
Lemma json_sound : sound d_json anything.
Proof.
  split; [|split].
  - intros j a H. inv H. reflexivity.
  - intros j a _. eexists; reflexivity.
  - intros j; discriminate.
Qed.
Lemma or_null_sound {A} (d : decoder A) R : sound d R -> sound (nullable d) (or_null R).
Proof.
  intros (H1 & H2 & H3). split; [|split].
  - intros j o H. unfold or_null. destruct j; cbn [nullable] in H; try (inv H; left; split; reflexivity);
      right; (split; [discriminate|]); bind_inv H; inv H; eexists; (split; [reflexivity|]); apply H1; assumption.
  - intros j o [[-> _]|[N (a & _ & H)]]; [eexists; reflexivity|]. destruct (H2 _ _ H) as [a' E].
    exists (Some a'). destruct j; cbn [nullable]; try rewrite E; try reflexivity. contradiction.
  - intros j. specialize (H3 j). destruct j; cbn [nullable]; try discriminate;
      match goal with |- (let* _ := ?m in _) <> _ => destruct m; cbn [bind]; congruence end.
Qed.
Lemma mapM_sound {A} (d : decoder A) R : sound d R ->
  (forall js l, mapM d js = Ok l -> Forall2 R js l) /\ (forall js l, Forall2 R js l -> exists l', mapM d js = Ok l') /\
  (forall js, mapM d js <> Panic).
Proof.
  intros (H1 & H2 & H3). split; [|split].
  - induction js as [|j js IH]; intros l H; cbn [mapM] in H; [inv H; constructor|].
    bind_inv H. bind_inv H. inv H. constructor; [apply H1, E|apply IH; assumption].
  - intros js l H. induction H as [|j a js l Hj _ [l' IH]]; [eexists; reflexivity|]. cbn [mapM].
    destruct (H2 _ _ Hj) as [a' ->]. cbn [bind]. rewrite IH. eexists; reflexivity.
  - intros js. apply mapM_not_panic. intros j _. apply H3.
Qed.
Lemma list_sound {A} (d : decoder A) R : sound d R -> sound (d_vec d) (list_of R).
Proof.
  intros H. destruct (mapM_sound d R H) as (H1 & H2 & H3). split; [|split].
  - intros j l E. destruct j; try discriminate. exists l0. split; [reflexivity|]. apply H1, E.
  - intros j l (js & -> & E). apply (H2 _ _ E).
  - intros j. destruct j; try discriminate. apply H3.
Qed.
Lemma pair_sound {A B} (da : decoder A) (db : decoder B) RA RB : sound da RA -> sound db RB ->
  sound (d_pair da db) (pair_of RA RB).
Proof.
  intros (A1 & A2 & A3) (B1 & B2 & B3). split; [|split].
  - intros j p H. destruct j as [| | | | |l|]; try discriminate. destruct l as [|a [|b [|]]]; try discriminate.
    cbn [d_pair] in H. bind_inv H. bind_inv H. inv H. exists a, b. repeat split; auto.
  - intros j p (a & b & -> & HA & HB). cbn [d_pair]. destruct (A2 _ _ HA) as [a' ->]. cbn [bind].
    destruct (B2 _ _ HB) as [b' ->]. eexists; reflexivity.
  - intros j. destruct j as [| | | | |l|]; try discriminate. destruct l as [|a [|b [|]]]; try discriminate.
    cbn [d_pair]. specialize (A3 a). specialize (B3 b). destruct (da a); cbn [bind]; try congruence.
    destruct (db b); cbn [bind]; congruence.
Qed.

(** Maps. *)
Lemma hget_rev_last {K V} (eqb : K -> K -> bool) (eqb_spec : forall a b, eqb a b = true <-> a = b) k v (l : list (K * V)) :
  hget eqb k (rev l) = Some v -> exists l1 l2, l = l1 ++ (k, v) :: l2 /\ forall v', ~ In (k, v') l2.
Proof.
  induction l as [|[k' v'] l IH] using rev_ind; [discriminate|]. rewrite rev_app_distr. cbn [rev app hget].
  destruct (eqb k k') eqn:E.
  - intros H. inv H. apply eqb_spec in E. subst k'. exists l, []. split; [reflexivity|]. intros ? [].
  - intros H. destruct (IH H) as (l1 & l2 & -> & N). exists l1, (l2 ++ [(k', v')]).
    split; [rewrite <- app_assoc; reflexivity|]. intros w Hw. apply in_app_iff in Hw. destruct Hw as [Hw|[Hw|[]]].
    + exact (N w Hw).
    + inv Hw. assert (eqb k k = true) by (apply eqb_spec; reflexivity). congruence.
Qed.

Lemma map_sound {K V} (eqb : K -> K -> bool) (eqb_spec : forall a b, eqb a b = true <-> a = b)
  (key : str -> option K) (keyR : str -> K -> Prop) (keyS : forall s k, key s = Some k <-> keyR s k)
  ord (d : str -> decoder V) R : (forall s, sound (d s) R) -> sound (d_map eqb key ord d) (map_of keyR R).
Proof.
  intros Hd.
  set (entry := fun kv : str * json => let* k := ok_or EIo (key (fst kv)) in let* v := d (fst kv) (snd kv) in Ok (k, v)).
  assert (Eiff : forall s j k a, entry (s, j) = Ok (k, a) -> keyR s k /\ R j a).
  { intros s j k a H. unfold entry in H. cbn [fst snd] in H. bind_inv H. bind_inv H. inv H.
    destruct (key s) as [k'|] eqn:Ek; inv E. split; [apply keyS, Ek|]. apply (proj1 (Hd s)), E0. }
  assert (Eex : forall s j, (exists k, keyR s k) -> (exists a, R j a) -> exists p, entry (s, j) = Ok p).
  { intros s j [k Hk] [a Ha]. unfold entry. cbn [fst snd]. apply keyS in Hk. rewrite Hk. cbn [ok_or bind].
    destruct (proj1 (proj2 (Hd s)) _ _ Ha) as [a' ->]. eexists; reflexivity. }
  assert (Enp : forall kv, entry kv <> Panic).
  { intros [s j]. unfold entry. cbn [fst snd]. destruct (key s); cbn [ok_or bind]; [|discriminate].
    pose proof (proj2 (proj2 (Hd s)) j). destruct (d s j); cbn [bind]; congruence. }
  split; [|split].
  - intros j m H. destruct j as [| | | | | |kvs]; try discriminate. cbn [d_map] in H. fold entry in H. bind_inv H. inv H.
    exists kvs. split; [reflexivity|].
    assert (F : Forall2 (fun kv p => entry kv = Ok p) kvs a) by (apply mapM_ok_Forall2 in E; exact E).
    set (m := reorder ord (hcollect eqb a)).
    assert (P : Permutation (hcollect eqb a) m) by apply reorder_perm.
    assert (ND0 : NoDup (hkeys (hcollect eqb a))) by (apply hcollect_NoDup; exact eqb_spec).
    split; [|split; [|split]].
    + apply (Permutation_NoDup (l := map fst (hcollect eqb a))); [apply Permutation_map, P|exact ND0].
    + intros s v Hin. clear - F Hin Eiff. induction F as [|[s' v'] [k a'] kvs l He F IH]; [contradiction|].
      destruct Hin as [Hin|Hin]; [|apply IH, Hin]. inv Hin. apply Eiff in He. destruct He. split; eauto.
    + intros k v Hin. apply (Permutation_in _ (Permutation_sym P)) in Hin.
      assert (G : hget eqb k (hcollect eqb a) = Some v) by (apply hget_NoDup; assumption).
      rewrite hget_hcollect in G by exact eqb_spec. apply hget_rev_last in G; [|exact eqb_spec].
      destruct G as (l1 & l2 & -> & N). apply Forall2_app_inv_r in F. destruct F as (k1 & k2 & F1 & F2 & ->).
      inversion F2 as [|[s j] ? k2' ? He F2']; subst. apply Eiff in He. destruct He as [He1 He2].
      exists k1, s, j, k2'. split; [reflexivity|]. split; [exact He1|]. split; [exact He2|].
      intros s' v' Hs Hk. clear - F2' N Hs Hk Eiff keyS. induction F2' as [|[s0 v0] [k0 a0] kvs l He F IH]; [contradiction|].
      destruct Hs as [Hs|Hs].
      * inv Hs. apply Eiff in He. destruct He as [He _]. apply keyS in He. apply keyS in Hk. rewrite He in Hk. inv Hk.
        eapply N. left. reflexivity.
      * apply IH; [|exact Hs]. intros w Hw. eapply N. right. exact Hw.
    + intros s v k Hin Hk.
      assert (I : In k (hkeys (hcollect eqb a))).
      { apply hcollect_keys; [exact eqb_spec|]. clear - F Hin Hk Eiff keyS.
        induction F as [|[s0 v0] [k0 a0] kvs l He F IH]; [contradiction|]. destruct Hin as [Hin|Hin].
        - inv Hin. apply Eiff in He. destruct He as [He _]. apply keyS in He. apply keyS in Hk. rewrite He in Hk. inv Hk.
          left. reflexivity.
        - right. apply IH, Hin. }
      unfold hkeys in I. apply in_map_iff in I. destruct I as ([k0 a0] & Ek & I). cbn [fst] in Ek. subst k0.
      exists a0. apply (Permutation_in _ P), I.
  - intros j m (kvs & -> & _ & H & _). cbn [d_map]. fold entry.
    assert (G : exists l, mapM entry kvs = Ok l).
    { induction kvs as [|[s j] kvs IH]; [eexists; reflexivity|]. cbn [mapM].
      destruct (H s j (or_introl eq_refl)) as [Hk Ha]. destruct (Eex s j Hk Ha) as [p ->]. cbn [bind].
      destruct IH as [l ->]; [intros s' v' I; apply H; right; exact I|]. eexists; reflexivity. }
    destruct G as [l ->]. eexists; reflexivity.
  - intros j. destruct j as [| | | | | |kvs]; try discriminate. cbn [d_map]. fold entry.
    assert (G : mapM entry kvs <> Panic) by (apply mapM_not_panic; intros kv _; apply Enp).
    destruct (mapM entry kvs); cbn [bind]; congruence.
Qed.
Lemma smap_sound {V} ord (d : decoder V) R : sound d R -> sound (d_smap ord d) (map_of text_key R).
Proof.
  intros H. unfold d_smap. apply map_sound; [apply str_eqb_spec| |intros _; exact H].
  intros s k. unfold text_key. split; [intros E; inv E; reflexivity|intros ->; reflexivity].
Qed.
Lemma nested_map_sound {V} ord (ords : str -> HashOrder) (d : decoder V) R : sound d R ->
  sound (d_map str_eqb (fun s => Some s) ord (fun k => d_smap (ords k) d)) (map_of text_key (map_of text_key R)).
Proof.
  intros H. apply map_sound; [apply str_eqb_spec| |intros s; apply smap_sound, H].
  intros s k. unfold text_key. split; [intros E; inv E; reflexivity|intros ->; reflexivity].
Qed.

(** Numeric keys. *)
Lemma digits_iff s n : (exists c r, s = c :: r) -> forallb is_digit s = true /\ decimal_value s = n <-> digits_of s n.
Proof.
  intros (c & r & ->). unfold digits_of. rewrite forallb_forall.
  assert (D : forall c, is_digit c = true <-> (48 <= c <= 57)%N).
  { intros c'. unfold is_digit. rewrite andb_true_iff, !N.leb_le. reflexivity. }
  split.
  - intros [H1 H2]. split; [discriminate|]. split; [intros c' Hc; apply D, H1, Hc|exact H2].
  - intros (_ & H1 & H2). split; [intros c' Hc; apply D, H1, Hc|exact H2].
Qed.
Lemma in_bounds lo hi z : ((lo <=? z) && (z <? hi))%Z = true <-> (lo <= z < hi)%Z.
Proof. rewrite andb_true_iff, Z.leb_le, Z.ltb_lt. reflexivity. Qed.

Lemma signed_key s z : i32_from_str s = Some z <-> int32_key s z.
Proof.
  unfold i32_from_str, z_from_str, int32_key.
  assert (G : forall sgn digits, 
    match digits with
    | [] => None
    | _ :: _ => let z := (sgn * Z.of_N (decimal_value digits))%Z in
         if forallb is_digit digits && ((- 2 ^ 31 <=? z) && (z <? 2 ^ 31))%Z then Some z else None
    end = Some z <-> (- 2 ^ 31 <= z < 2 ^ 31)%Z /\ exists n, digits_of digits n /\ z = (sgn * Z.of_N n)%Z).
  { intros sgn [|c r].
    - split; [discriminate|]. intros (_ & n & (H & _) & _). contradiction.
    - cbv zeta. destruct (forallb is_digit (c :: r) && _) eqn:E.
      + apply andb_true_iff in E. destruct E as [E1 E2]. apply in_bounds in E2. split.
        * intros H. inv H. split; [exact E2|]. eexists. split; [apply digits_iff; [eauto|]; split; [exact E1|reflexivity]|reflexivity].
        * intros (_ & n & Hn & ->). apply digits_iff in Hn; [|eauto]. destruct Hn as [_ <-]. reflexivity.
      + split; [discriminate|]. intros (Hb & n & Hn & ->). apply digits_iff in Hn; [|eauto]. destruct Hn as [Hn <-].
        apply in_bounds in Hb. rewrite Hn, Hb in E. discriminate. }
  destruct s as [|c r].
  - split; [discriminate|]. intros (_ & n & (H & _) & _). contradiction.
  - destruct (N.eqb_spec c 43) as [->|N1]; [|destruct (N.eqb_spec c 45) as [->|N2]]; cbn [andb].
    + eapply iff_trans; [exact (G 1%Z r)|]. split; intros (H & n & Hn & ->); (split; [exact H|]); exists n; (split; [exact Hn|lia]).
    + eapply iff_trans; [exact (G (-1)%Z r)|]. split; intros (H & n & Hn & ->); (split; [exact H|]); exists n; (split; [exact Hn|lia]).
    + eapply iff_trans; [exact (G 1%Z (c :: r))|].
      assert (M : forall T (a b d : T), match c with 43%N => a | 45%N => b | _ => d end = d).
      { intros T a b d. destruct c as [|p]; [reflexivity|].
        repeat (destruct p as [p|p|]; try reflexivity; try (exfalso; apply N1; reflexivity); try (exfalso; apply N2; reflexivity)). }
      assert (M' : forall T (b d : T), match c with 45%N => b | _ => d end = d).
      { intros T b d. destruct c as [|p]; [reflexivity|].
        repeat (destruct p as [p|p|]; try reflexivity; try (exfalso; apply N2; reflexivity)). }
      rewrite M. split; intros (H & n & Hn & Hz); (split; [exact H|]); exists n; (split; [exact Hn|]); rewrite M' in *; lia.
Qed.

Lemma unsigned_key s k : usize_from_str s = Some k <-> usize_key s k.
Proof.
  unfold usize_from_str, z_from_str, usize_key.
  assert (G : forall digits, 
    option_map Z.to_nat match digits with
    | [] => None
    | _ :: _ => let z := (1 * Z.of_N (decimal_value digits))%Z in
         if forallb is_digit digits && ((0 <=? z) && (z <? 2 ^ 64))%Z then Some z else None
    end = Some k <-> (Z.of_nat k < 2 ^ 64)%Z /\ digits_of digits (N.of_nat k)).
  { intros [|c r].
    - split; [discriminate|]. intros (_ & (H & _)). contradiction.
    - cbv zeta. destruct (forallb is_digit (c :: r) && _) eqn:E.
      + apply andb_true_iff in E. destruct E as [E1 E2]. apply in_bounds in E2. cbn [option_map]. split.
        * intros H. rewrite Z.mul_1_l in *. assert (Hk : k = Z.to_nat (Z.of_N (decimal_value (c :: r)))) by congruence. rewrite Hk. split; [lia|]. apply digits_iff; [eauto|]. split; [exact E1|]. lia.
        * intros (_ & Hn). apply digits_iff in Hn; [|eauto]. destruct Hn as [_ ->]. f_equal. lia.
      + split; [discriminate|]. intros (Hb & Hn). apply digits_iff in Hn; [|eauto]. destruct Hn as [Hn Hv].
        assert (B : ((0 <=? 1 * Z.of_N (decimal_value (c :: r))) && (1 * Z.of_N (decimal_value (c :: r)) <? 2 ^ 64))%Z = true).
        { apply in_bounds. rewrite Hv. lia. }
        rewrite Hn, B in E. discriminate. }
  destruct s as [|c r].
  - split; [discriminate|]. intros (_ & (H & _)). contradiction.
  - destruct (N.eqb_spec c 43) as [->|N1]; cbn [andb].
    + exact (G r).
    + rewrite andb_false_r. eapply iff_trans; [exact (G (c :: r))|].
      assert (M : forall T (a d : T), match c with 43%N => a | _ => d end = d).
      { intros T a d. destruct c as [|p]; [reflexivity|].
        repeat (destruct p as [p|p|]; try reflexivity; try (exfalso; apply N1; reflexivity)). }
      rewrite M. reflexivity.
Qed.

(** ** Structures *)
Definition stands (names : list str) (j : json) (name : str) (f : found) : Prop :=
  match f with
  | Present v => given names j name v
  | Absent => omitted j name
  | AbsentSeq => cut_off names j name
  end.

Lemma find_field_iff kvs name f : find_field kvs name = Ok f <->
  match f with
  | Present v => field_once (JObj kvs) name v
  | Absent => omitted (JObj kvs) name
  | AbsentSeq => False
  end.
Proof.
  unfold find_field.
  assert (G : forall kvs, match filter (fun kv => str_eqb (fst kv) name) kvs with
    | [] => forall v, ~ In (name, v) kvs
    | [kv] => field_once (JObj kvs) name (snd kv)
    | _ => (forall v, ~ field_once (JObj kvs) name v) /\ exists v, In (name, v) kvs
    end).
  { clear. induction kvs as [|[k v] kvs IH]; [intros v []|]. cbn [filter fst].
    destruct (str_eqb k name) eqn:E.
    - apply str_eqb_spec in E. subst k. destruct (filter _ kvs) as [|[k' v'] [|]] eqn:F.
      + exists [], kvs. split; [reflexivity|]. intros k w I. cbn [app] in I. intros ->. exact (IH w I).
      + split; [|exists v; left; reflexivity]. intros w (b & a & H & N). injection H as H.
        assert (I' : In (name, v') kvs).
        { assert (I : In (k', v') (filter (fun kv => str_eqb (fst kv) name) kvs)) by (rewrite F; left; reflexivity).
          apply filter_In in I. destruct I as [I E]. cbn [fst] in E. apply str_eqb_spec in E. subst k'. exact I. }
        destruct b as [|b0 b]; cbn [app] in H.
        * injection H as -> ->. eapply (N name v'); [exact I'|reflexivity].
        * injection H as <- _. eapply (N name v); [left; reflexivity|reflexivity].
      + split; [|exists v; left; reflexivity]. destruct IH as [_ [v0 I']]. intros w (b & a & H & N). injection H as H.
        destruct b as [|b0 b]; cbn [app] in H.
        * injection H as -> ->. eapply (N name v0); [exact I'|reflexivity].
        * injection H as <- _. eapply (N name v); [left; reflexivity|reflexivity].
    - apply str_eqb_neq in E. destruct (filter _ kvs) as [|[k' v'] [|]] eqn:F.
      + intros w [H|H]; [inv H; contradiction|exact (IH w H)].
      + destruct IH as (b & a & H & N). injection H as ->. exists ((k, v) :: b), a. split; [reflexivity|].
        intros k0 w [I|I]; [inv I; exact E|exact (N k0 w I)].
      + destruct IH as [IH [v0 I0]]. split; [|exists v0; right; exact I0]. intros w (b & a & H & N). injection H as H.
        destruct b as [|b0 b]; cbn [app] in H; [injection H as -> -> _; contradiction|].
        injection H as <- H. apply (IH w). exists b, a. split; [congruence|]. intros k0 w0 I. apply (N k0 w0). right. exact I. }
  specialize (G kvs).
  assert (U : forall v w, field_once (JObj kvs) name v -> In (name, w) kvs -> w = v).
  { intros v w (b & a & H & N) I. injection H as ->. apply in_app_iff in I. destruct I as [I|[I|I]].
    - exfalso. eapply (N name w); [apply in_app_iff; left; exact I|reflexivity].
    - inv I. reflexivity.
    - exfalso. eapply (N name w); [apply in_app_iff; right; exact I|reflexivity]. }
  assert (O : forall v, field_once (JObj kvs) name v -> In (name, v) kvs).
  { intros v (b & a & H & _). injection H as ->. apply in_app_iff. right. left. reflexivity. }
  destruct (filter _ kvs) as [|kv [|]].
  - destruct f; (split; [intros H; inv H|intros H]); try contradiction.
    + exfalso. exact (G _ (O _ H)).
    + exists kvs. split; [reflexivity|exact G].
    + reflexivity.
  - destruct f; (split; [intros H; inv H|intros H]); try contradiction.
    + exact G.
    + f_equal. f_equal. apply (U _ _ H), O, G.
    + destruct H as (kvs' & H & N). injection H as <-. exfalso. exact (N _ (O _ G)).
  - destruct G as [G1 [v0 I0]]. destruct f; (split; [discriminate|intros H]); try contradiction.
    + exfalso. exact (G1 _ H).
    + destruct H as (kvs' & H & N). injection H as <-. exfalso. exact (N _ I0).
Qed.

Lemma fields_ok names j fs : fields names j = Ok fs -> structure names j /\ Forall2 (stands names j) names fs.
Proof.
  destruct j as [| | | | |l|kvs]; cbn [fields]; try discriminate.
  - destruct (Nat.ltb_spec (length names) (length l)) as [L|L]; [discriminate|]. intros H. inv H.
    split; [right; eauto|].
    assert (G : forall pre rest l', names = pre ++ rest -> (forall i v, nth_error l' i = Some v -> nth_error l (length pre + i) = Some v) ->
      length l' <= length rest -> (length l <= length pre + length l') ->
      Forall2 (stands names (JArr l)) rest (map Present l' ++ repeat AbsentSeq (length rest - length l'))).
    { intros pre rest. revert pre. induction rest as [|n rest IH]; intros pre l' Hn Hl L1 L2.
      - destruct l'; [constructor|cbn [length] in L1; lia].
      - assert (Hn' : nth_error names (length pre) = Some n).
        { rewrite Hn, nth_error_app2, Nat.sub_diag by lia. reflexivity. }
        destruct l' as [|v l'].
        + cbn [map app length Nat.sub repeat]. constructor.
          * exists l, (length pre). split; [reflexivity|]. split; [exact Hn'|]. cbn [length] in L2. lia.
          * specialize (IH (pre ++ [n]) []). cbn [map app length] in IH. rewrite Nat.sub_0_r in IH. apply IH.
            -- rewrite <- app_assoc. exact Hn.
            -- intros i v H. destruct i; discriminate.
            -- lia.
            -- rewrite app_length. cbn [length] in *. lia.
        + cbn [map app length Nat.sub]. constructor.
          * right. exists l, (length pre). split; [reflexivity|]. split; [exact Hn'|].
            rewrite <- (Nat.add_0_r (length pre)). apply Hl. reflexivity.
          * apply (IH (pre ++ [n]) l').
            -- rewrite <- app_assoc. exact Hn.
            -- intros i w H. rewrite app_length. cbn [length]. replace (length pre + 1 + i) with (length pre + S i) by lia.
               apply Hl. exact H.
            -- cbn [length] in L1. lia.
            -- rewrite app_length. cbn [length] in *. lia. }
    apply (G [] names l); [reflexivity|intros i v H; exact H|exact L|cbn [length]; lia].
  - intros H. split; [left; eauto|]. apply mapM_ok_Forall2 in H. clear - H.
    induction H as [|n f names fs Hf _ IH]; [constructor|]. constructor.
    + apply find_field_iff in Hf. destruct f; cbn [stands]; [left; exact Hf|exact Hf|contradiction].
    + clear - IH. revert IH. generalize names at 2 4 as ns. intros ns IH. induction IH as [|n' f' ns' fs' Hs _ IH']; constructor; [|exact IH'].
      destruct f'; cbn [stands] in *; [|exact Hs|].
      * destruct Hs as [Hs|(l & i & Hs & _)]; [left; exact Hs|discriminate].
      * destruct Hs as (l & i & Hs & _). discriminate.
Qed.

Lemma stands_fun names j name f f' : NoDup names -> stands names j name f -> stands names j name f' -> f = f'.
Proof.
  intros ND.
  assert (Arr : forall i i', nth_error names i = Some name -> nth_error names i' = Some name -> i = i').
  { intros i i' H H'. apply (proj1 (NoDup_nth_error names) ND); [|congruence].
    apply nth_error_Some. rewrite H. discriminate. }
  destruct j as [| | | | |l|kvs].
  1-5: destruct f; cbn [stands]; intros H; exfalso;
    [destruct H as [(b' & a & H & _)|(l & i & H & _)]|destruct H as (b' & H & _)|destruct H as (b' & i & H & _)]; discriminate.
  - destruct f as [v| |], f' as [v'| |]; cbn [stands]; try reflexivity;
      try (intros _ (b & H & _); discriminate); try (intros (b & H & _) _; discriminate).
    + intros [(b & a & H & _)|(l1 & i & H & Hn & Hv)]; [discriminate|]. injection H as <-.
      intros [(b & a & H & _)|(l1 & i' & H & Hn' & Hv')]; [discriminate|]. injection H as <-.
      rewrite (Arr i i' Hn Hn') in Hv. congruence.
    + intros [(b & a & H & _)|(l1 & i & H & Hn & Hv)]; [discriminate|]. injection H as <-.
      intros (l1 & i' & H & Hn' & Hv'). injection H as <-. rewrite (Arr i i' Hn Hn') in Hv.
      apply nth_error_None in Hv'. congruence.
    + intros (l1 & i' & H & Hn' & Hv'). injection H as <-.
      intros [(b & a & H & _)|(l1 & i & H & Hn & Hv)]; [discriminate|]. injection H as <-.
      rewrite (Arr i i' Hn Hn') in Hv. apply nth_error_None in Hv'. congruence.
  - assert (C : forall f, stands names (JObj kvs) name f -> find_field kvs name = Ok f).
    { intros g Hg. apply find_field_iff. destruct g; cbn [stands] in Hg.
      - destruct Hg as [Hg|(l & i & Hg & _)]; [exact Hg|discriminate].
      - exact Hg.
      - destruct Hg as (l & i & Hg & _). discriminate. }
    intros H H'. apply C in H. apply C in H'. congruence.
Qed.

Lemma fields_exist names j : structure names j -> (forall n, In n names -> exists f, stands names j n f) ->
  exists fs, fields names j = Ok fs.
Proof.
  intros [[kvs ->]|(l & -> & L)] H; cbn [fields].
  - assert (G : forall ns, incl ns names -> exists fs, mapM (find_field kvs) ns = Ok fs).
    { induction ns as [|n ns IH]; intros I; [eexists; reflexivity|]. cbn [mapM].
      destruct (H n (I n (or_introl eq_refl))) as [f Hf].
      assert (E : find_field kvs n = Ok f).
      { apply find_field_iff. destruct f; cbn [stands] in Hf.
        - destruct Hf as [Hf|(l & i & Hf & _)]; [exact Hf|discriminate].
        - exact Hf.
        - destruct Hf as (l & i & Hf & _). discriminate. }
      rewrite E. cbn [bind]. destruct IH as [fs ->]; [intros m Hm; apply I; right; exact Hm|]. eexists; reflexivity. }
    apply G. intros n Hn. exact Hn.
  - destruct (Nat.ltb_spec (length names) (length l)); [lia|]. eexists; reflexivity.
Qed.
Lemma fields_no_panic names j : fields names j <> Panic.
Proof.
  destruct j as [| | | | |l|kvs]; cbn [fields]; try discriminate.
  - destruct (length names <? length l); discriminate.
  - apply mapM_not_panic. intros n _. unfold find_field. destruct (filter _ kvs) as [|? [|]]; discriminate.
Qed.

(** Kinds of fields: the reader of what was found, the relation, and that reading follows it. *)
Record fits {A} (names : list str) (df : found -> outcome A) (name : str) (RF : json -> A -> Prop) : Prop := {
  fits_ok : forall j f a, stands names j name f -> df f = Ok a -> RF j a;
  fits_ex : forall j f a, stands names j name f -> RF j a -> exists a', df f = Ok a';
  fits_np : forall f, df f <> Panic;
  fits_stands : forall j a, RF j a -> exists f, stands names j name f
}.
Lemma required_fits {A} names name (d : decoder A) R : NoDup names -> sound d R ->
  fits names (required d) name (fun j => field names j name R).
Proof.
  intros ND (H1 & H2 & H3). split.
  - intros j f a S H. destruct f; try discriminate. exists j0. split; [exact S|apply H1, H].
  - intros j f a S (v & G & Hv). rewrite (stands_fun names j name f (Present v) ND S G). apply (H2 _ _ Hv).
  - intros f. destruct f; try discriminate. apply H3.
  - intros j a (v & G & _). exists (Present v). exact G.
Qed.
Lemma optional_fits {A} names name (d : decoder A) R : NoDup names -> sound d R ->
  fits names (optional d) name (fun j => field_or_none names j name R).
Proof.
  intros ND (H1 & H2 & H3). split.
  - intros j f a S H. destruct f; try discriminate; [|inv H; right; split; [right; exact S|reflexivity]].
    destruct j0; cbn [optional nullable] in H; try (inv H; right; split; [left; exact S|reflexivity]);
      left; bind_inv H; inv H; eexists; eexists; (split; [exact S|]); (split; [discriminate|]); (split; [|reflexivity]);
      apply H1; assumption.
  - intros j f a S [(v & b & G & N & Hv & ->)|[[G|G] ->]].
    + rewrite (stands_fun names j name f (Present v) ND S G). destruct (H2 _ _ Hv) as [b' E]. exists (Some b').
      cbn [optional]. destruct v; cbn [nullable]; try rewrite E; try reflexivity. contradiction.
    + rewrite (stands_fun names j name f (Present JNull) ND S G). eexists; reflexivity.
    + rewrite (stands_fun names j name f Absent ND S G). eexists; reflexivity.
  - intros f. destruct f; try discriminate. specialize (H3 j). destruct j; cbn [optional nullable]; try discriminate;
      match goal with |- (let* _ := ?m in _) <> _ => destruct m; cbn [bind]; congruence end.
  - intros j a [(v & b & G & _)|[[G|G] _]]; [exists (Present v)|exists (Present JNull)|exists Absent]; exact G.
Qed.
Lemma defaulted_fits {A} names name (x : A) (d : decoder A) R : NoDup names -> sound d R ->
  fits names (defaulted x d) name (fun j => field_or names j name x R).
Proof.
  intros ND (H1 & H2 & H3). split.
  - intros j f a S H. destruct f; cbn [defaulted] in H.
    + left. exists j0. split; [exact S|apply H1, H].
    + inv H. right. split; [left; exact S|reflexivity].
    + inv H. right. split; [right; exact S|reflexivity].
  - intros j f a S [(v & G & Hv)|[[G|G] ->]].
    + rewrite (stands_fun names j name f (Present v) ND S G). apply (H2 _ _ Hv).
    + rewrite (stands_fun names j name f Absent ND S G). eexists; reflexivity.
    + rewrite (stands_fun names j name f AbsentSeq ND S G). eexists; reflexivity.
  - intros f. destruct f; try discriminate. apply H3.
  - intros j a [(v & G & _)|[[G|G] _]]; [exists (Present v)|exists Absent|exists AbsentSeq]; exact G.
Qed.

Lemma req_ok {A} names name (d : decoder A) R j f a : NoDup names -> stands names j name f -> required d f = Ok a ->
  sound d R -> field names j name R a.
Proof. intros ND S E H. exact (fits_ok _ _ _ _ (required_fits names name d R ND H) j f a S E). Qed.
Lemma ign_ok {A} names name (d : decoder A) R j f a : NoDup names -> stands names j name f -> required d f = Ok a ->
  sound d R -> field_ignored names j name R.
Proof. intros ND S E H. exists a. eapply req_ok; eassumption. Qed.
Lemma opt_ok {A} names name (d : decoder A) R j f a : NoDup names -> stands names j name f -> optional d f = Ok a ->
  sound d R -> field_or_none names j name R a.
Proof. intros ND S E H. exact (fits_ok _ _ _ _ (optional_fits names name d R ND H) j f a S E). Qed.
Lemma def_ok {A} names name (x : A) (d : decoder A) R j f a : NoDup names -> stands names j name f -> defaulted x d f = Ok a ->
  sound d R -> field_or names j name x R a.
Proof. intros ND S E H. exact (fits_ok _ _ _ _ (defaulted_fits names name x d R ND H) j f a S E). Qed.

Lemma req_ex {A} names name (d : decoder A) R j f : NoDup names -> stands names j name f ->
  field_ignored names j name R -> sound d R -> exists a, required d f = Ok a.
Proof. intros ND S [a E] H. exact (fits_ex _ _ _ _ (required_fits names name d R ND H) j f a S E). Qed.
Lemma opt_ex {A} names name (d : decoder A) R j f o : NoDup names -> stands names j name f ->
  field_or_none names j name R o -> sound d R -> exists a, optional d f = Ok a.
Proof. intros ND S E H. exact (fits_ex _ _ _ _ (optional_fits names name d R ND H) j f o S E). Qed.
Lemma def_ex {A} names name (x : A) (d : decoder A) R j f o : NoDup names -> stands names j name f ->
  field_or names j name x R o -> sound d R -> exists a, defaulted x d f = Ok a.
Proof. intros ND S E H. exact (fits_ex _ _ _ _ (defaulted_fits names name x d R ND H) j f o S E). Qed.

Lemma req_np {A} (d : decoder A) R f : sound d R -> required d f <> Panic.
Proof. intros (_ & _ & H). destruct f; try discriminate. apply H. Qed.
Lemma opt_np {A} (d : decoder A) R f : sound d R -> optional d f <> Panic.
Proof. intros H. exact (fits_np _ _ _ _ (optional_fits [] [] d R (NoDup_nil _) H) f). Qed.
Lemma def_np {A} (x : A) (d : decoder A) R f : sound d R -> defaulted x d f <> Panic.
Proof. intros H. exact (fits_np _ _ _ _ (defaulted_fits [] [] x d R (NoDup_nil _) H) f). Qed.

Lemma field_stands {A} names j name (R : meant A) a : field names j name R a -> exists f, stands names j name f.
Proof. intros (v & G & _). exists (Present v). exact G. Qed.
Lemma ignored_stands {A} names j name (R : meant A) : field_ignored names j name R -> exists f, stands names j name f.
Proof. intros (a & v & G & _). exists (Present v). exact G. Qed.
Lemma none_stands {A} names j name (R : meant A) a : field_or_none names j name R a -> exists f, stands names j name f.
Proof. intros [(v & b & G & _)|[[G|G] _]]; [exists (Present v)|exists (Present JNull)|exists Absent]; exact G. Qed.
Lemma or_stands {A} names j name x (R : meant A) a : field_or names j name x R a -> exists f, stands names j name f.
Proof. intros [(v & G & _)|[[G|G] _]]; [exists (Present v)|exists Absent|exists AbsentSeq]; exact G. Qed.
Lemma field_ignore {A} names j name (R : meant A) a : field names j name R a -> field_ignored names j name R.
Proof. intros H. exists a. exact H. Qed.

Lemma i32_sound : sound d_i32 int32. Proof. apply whole_sound. Qed.
Lemma u8_sound : sound d_u8 (natural 256). Proof. apply natural_sound. Qed.
Lemma usize_sound : sound d_usize (natural (2 ^ 64)). Proof. apply natural_sound. Qed.
Lemma f32_sound f : sound (d_f32 f) (number f).
Proof.
  split; [|split].
  - intros j a H. unfold d_f32 in H. destruct (f j) eqn:E; inv H. exact E.
  - intros j a H. unfold d_f32. rewrite H. eexists; reflexivity.
  - intros j. unfold d_f32. destruct (f j); discriminate.
Qed.
Lemma z_map_sound {V} ord (d : decoder V) R : sound d R ->
  sound (d_map Z.eqb i32_from_str ord (fun _ => d)) (map_of int32_key R).
Proof. intros H. apply map_sound; [apply Z.eqb_eq|apply signed_key|intros _; exact H]. Qed.
Lemma n_map_sound {V} ord (d : decoder V) R : sound d R ->
  sound (d_map Nat.eqb usize_from_str ord (fun _ => d)) (map_of usize_key R).
Proof. intros H. apply map_sound; [apply Nat.eqb_eq|apply unsigned_key|intros _; exact H]. Qed.

Create HintDb sounds.
Global Hint Resolve text_sound flag_sound json_sound or_null_sound list_sound pair_sound smap_sound nested_map_sound
  i32_sound u8_sound usize_sound f32_sound z_map_sound n_map_sound : sounds.
Ltac snd := solve [eauto 8 with sounds].

Ltac no_dup := repeat (constructor; [let H := fresh in intros H; cbn [In] in H; repeat (destruct H as [H|H]; [discriminate H|]); exact H|]); constructor.

Ltac destruct_conj := repeat match goal with H : _ /\ _ |- _ => destruct H end.

(** One field after the other. *)
Ltac next_ok ND :=
  first [eapply req_ok; [exact ND|eassumption|eassumption|snd]
        |eapply ign_ok; [exact ND|eassumption|eassumption|snd]
        |eapply opt_ok; [exact ND|eassumption|eassumption|snd]
        |eapply def_ok; [exact ND|eassumption|eassumption|snd]].
Ltac next_ex ND :=
  match goal with
  | |- exists _, (let* _ := required ?d ?f in _) = _ =>
      let K := fresh in let a := fresh "a" in let E := fresh "E" in
      assert (K : exists a, required d f = Ok a)
        by (eapply req_ex; [exact ND|eassumption|first [eassumption|eapply field_ignore; eassumption]|snd]);
      destruct K as [a E]; rewrite E; cbn [bind]
  | |- exists _, (let* _ := optional ?d ?f in _) = _ =>
      let K := fresh in let a := fresh "a" in let E := fresh "E" in
      assert (K : exists a, optional d f = Ok a) by (eapply opt_ex; [exact ND|eassumption|eassumption|snd]);
      destruct K as [a E]; rewrite E; cbn [bind]
  | |- exists _, (let* _ := defaulted ?v ?d ?f in _) = _ =>
      let K := fresh in let a := fresh "a" in let E := fresh "E" in
      assert (K : exists a, defaulted v d f = Ok a) by (eapply def_ex; [exact ND|eassumption|eassumption|snd]);
      destruct K as [a E]; rewrite E; cbn [bind]
  end.
Ltac next_np :=
  match goal with
  | |- (let* _ := required ?d ?f in _) <> _ =>
      let N := fresh in assert (N : required d f <> Panic) by (eapply req_np; snd); destruct (required d f); cbn [bind]; [clear N|discriminate|congruence]
  | |- (let* _ := optional ?d ?f in _) <> _ =>
      let N := fresh in assert (N : optional d f <> Panic) by (eapply opt_np; snd); destruct (optional d f); cbn [bind]; [clear N|discriminate|congruence]
  | |- (let* _ := defaulted ?v ?d ?f in _) <> _ =>
      let N := fresh in assert (N : defaulted v d f <> Panic) by (eapply def_np; snd); destruct (defaulted v d f); cbn [bind]; [clear N|discriminate|congruence]
  end.
Ltac names_of H k := match type of H with fields ?n _ = _ => k n end.
Lemma Forall2_cons_l {A B} (R : A -> B -> Prop) a l l' : Forall2 R (a :: l) l' -> exists b r, l' = b :: r /\ R a b /\ Forall2 R l r.
Proof. intros H. inversion H; subst. eauto. Qed.
Lemma Forall2_nil_l {A B} (R : A -> B -> Prop) l' : Forall2 R [] l' -> l' = [].
Proof. intros H. inversion H. reflexivity. Qed.
Ltac invert_all := repeat match goal with
  | F : Forall2 _ (_ :: _) _ |- _ => apply Forall2_cons_l in F; destruct F as (? & ? & ? & ? & F); subst
  | F : Forall2 _ [] _ |- _ => apply Forall2_nil_l in F; subst end.

Ltac struct_sound d doc :=
  split; [|split];
  [ let j := fresh "j" in let m := fresh "m" in let H := fresh "H" in let fs := fresh "fs" in let EF := fresh "EF" in
    intros j m H; unfold d in H;
    match type of H with (let* _ := fields ?ns j in _) = _ =>
      destruct (fields ns j) as [fs| |] eqn:EF; cbn [bind] in H; try discriminate H;
      apply fields_ok in EF; destruct EF as [? EF];
      let ND := fresh "ND" in assert (ND : NoDup ns) by no_dup;
      invert_all; repeat (bind_inv H); repeat match goal with v : (_ * _)%type |- _ => destruct v end; unfold doc; cbv zeta; inv H; split; [assumption|];
      repeat match goal with |- _ /\ _ => split end; next_ok ND
    end
  | let j := fresh "j" in let m := fresh "m" in let H := fresh "H" in
    intros j m H; unfold doc in H; cbv zeta in H; unfold d;
    match goal with |- exists _, (let* _ := fields ?ns j in _) = _ =>
      let ND := fresh "ND" in assert (ND : NoDup ns) by no_dup;
      let fs := fresh "fs" in let EF := fresh "EF" in
      assert (EF : exists fs, fields ns j = Ok fs);
      [destruct_conj; apply fields_exist; [assumption|];
       let n := fresh "n" in let I := fresh "I" in intros n I; cbn [In] in I;
       repeat (destruct I as [I|I]; [subst n;
         first [eapply field_stands; eassumption|eapply ignored_stands; eassumption|eapply none_stands; eassumption|eapply or_stands; eassumption]|]);
       contradiction
      |destruct EF as [fs EF]; rewrite EF; cbn [bind]; apply fields_ok in EF; destruct EF as [? EF]; invert_all; destruct_conj;
       repeat next_ex ND; try (eexists; reflexivity)]
    end
  | let j := fresh "j" in intros j; unfold d;
    match goal with |- (let* _ := fields ?ns j in _) <> _ =>
      let N := fresh "N" in pose proof (fields_no_panic ns j) as N;
      let fs := fresh "fs" in destruct (fields ns j) as [fs| |]; cbn [bind]; [clear N|discriminate|congruence];
      repeat (destruct fs as [|? fs]; try discriminate); repeat next_np; try discriminate
    end ].

Lemma bind_ret {A} (m : outcome A) : (let* a := m in Ok a) = m.
Proof. destruct m; reflexivity. Qed.
Lemma sound_ext {A} (d d' : decoder A) R : (forall j, d j = d' j) -> sound d R -> sound d' R.
Proof.
  intros E (H1 & H2 & H3). split; [|split].
  - intros j a H. apply H1. rewrite E. exact H.
  - intros j a H. destruct (H2 j a H) as [a' H']. exists a'. rewrite <- E. exact H'.
  - intros j. rewrite <- E. apply H3.
Qed.
(** A structure of one field. *)
Ltac one_field := intros; match goal with |- bind ?m _ = bind ?m _ =>
    let fs := fresh in destruct m as [fs| |]; cbn [bind]; [|reflexivity|reflexivity];
    destruct fs as [|? [|? ?]]; try reflexivity; apply bind_ret end.

Lemma version_sound : sound d_model_version version_document.
Proof.
  apply (sound_ext (fun j => let* fs := fields [$"model_version"] j in
    match fs with [v] => let* a := required d_str v in Ok a | _ => Err EIo end)); [unfold d_model_version; one_field|].
  struct_sound d_model_version version_document.
Qed.
Lemma entity_sound : sound d_entity entity_document.
Proof.
  apply (sound_ext (fun j => let* fs := fields [$"automatically_extensible"] j in
    match fs with [v] => let* a := required d_bool v in Ok a | _ => Err EIo end)); [unfold d_entity; one_field|].
  struct_sound d_entity entity_document.
Qed.
Global Hint Resolve version_sound entity_sound : sounds.
Lemma dataset_sound o : sound (d_dataset o) dataset_document.
Proof. struct_sound d_dataset dataset_document. Qed.
Global Hint Resolve dataset_sound : sounds.
Lemma engine_sound o : sound (d_engine o) engine_document.
Proof. struct_sound d_engine engine_document. Qed.

Lemma unit_of_iff s u : unit_of s = Some u <-> s = unit_title u.
Proof.
  unfold unit_of. split.
  - destruct (str_eqb s $"deterministic_intent_parser") eqn:E1; [apply str_eqb_spec in E1; intros H; injection H as <-; exact E1|].
    destruct (str_eqb s $"lookup_intent_parser") eqn:E2; [apply str_eqb_spec in E2; intros H; injection H as <-; exact E2|].
    destruct (str_eqb s $"probabilistic_intent_parser") eqn:E3; [apply str_eqb_spec in E3; intros H; injection H as <-; exact E3|].
    destruct (str_eqb s $"crf_slot_filler") eqn:E4; [apply str_eqb_spec in E4; intros H; injection H as <-; exact E4|].
    destruct (str_eqb s $"log_reg_intent_classifier") eqn:E5; [apply str_eqb_spec in E5; intros H; injection H as <-; exact E5|].
    discriminate.
  - intros ->. destruct u; reflexivity.
Qed.
Lemma unit_sound : sound d_unit unit_document.
Proof.
  split; [|split].
  - intros j u H. destruct j as [| | | | |l|kvs]; try discriminate; cbn [d_unit] in H.
    + right. destruct l as [|v [|]]; try discriminate. destruct v as [| | | |s| |]; try discriminate. cbn [d_str bind] in H.
      destruct (unit_of s) as [u'|] eqn:Eu; [|discriminate]. injection H as <-. apply unit_of_iff in Eu. subst s. reflexivity.
    + left. destruct (find_field kvs $"unit_name") as [f| |] eqn:E; cbn [bind] in H; try discriminate.
      apply find_field_iff in E. destruct f as [v| |]; try discriminate. cbn [required] in H.
      destruct v as [| | | |s| |]; try discriminate. cbn [d_str bind] in H.
      destruct (unit_of s) as [u'|] eqn:Eu; [|discriminate]. injection H as <-. apply unit_of_iff in Eu. subst s. exact E.
  - intros j u [H| ->].
    + destruct j as [| | | | | |kvs]; try (destruct H as (? & ? & ? & _); discriminate).
      cbn [d_unit]. rewrite (proj2 (find_field_iff kvs $"unit_name" (Present (JStr (unit_title u)))) H).
      cbn [bind required d_str]. rewrite (proj2 (unit_of_iff _ u) eq_refl). eexists; reflexivity.
    + cbn [d_unit bind d_str]. rewrite (proj2 (unit_of_iff _ u) eq_refl). eexists; reflexivity.
  - intros j. destruct j as [| | | | |l|kvs]; try discriminate; cbn [d_unit].
    + destruct l as [|v [|]]; try discriminate. destruct v; cbn [d_str bind]; try discriminate. destruct (unit_of s); discriminate.
    + unfold find_field. destruct (filter _ kvs) as [|? [|]]; cbn [bind required]; try discriminate.
      destruct (snd p); cbn [d_str bind]; try discriminate. destruct (unit_of s); discriminate.
Qed.

Lemma resources_sound : sound d_resources resources_document.
Proof. struct_sound d_resources resources_document. Qed.
Lemma usage_sound : sound d_usage usage_document.
Proof.
  split; [|split].
  - intros j u H. unfold d_usage in H. bind_inv H. apply u8_sound in E. destruct E as [-> _].
    destruct a as [|[|[|a]]]; inv H; reflexivity.
  - intros j u ->. destruct u; eexists; reflexivity.
  - intros j. unfold d_usage. pose proof (proj2 (proj2 u8_sound) j). destruct (d_u8 j) as [n| |]; cbn [bind]; try congruence.
    destruct n as [|[|[|n]]]; discriminate.
Qed.
Global Hint Resolve usage_sound : sounds.
Lemma custom_sound : sound d_custom_metadata custom_document.
Proof. struct_sound d_custom_metadata custom_document. Qed.

Lemma builtin_sound : sound d_builtin_metadata builtin_document.
Proof.
  apply (sound_ext (fun j => let* fs := fields [$"language"; $"gazetteer_parser"] j in
    match fs with [l; g] => let* _ := required d_str l in let* a := optional d_str g in Ok a | _ => Err EIo end)); [|].
  { intros j. unfold d_builtin_metadata. destruct (fields _ j) as [fs| |]; cbn [bind]; [|reflexivity|reflexivity].
    destruct fs as [|l [|g [|]]]; try reflexivity. destruct (required d_str l); cbn [bind]; [apply bind_ret|reflexivity|reflexivity]. }
  struct_sound d_builtin_metadata builtin_document.
Qed.
Lemma entity_parser_sound : sound d_entity_parser entity_parser_document.
Proof. struct_sound d_entity_parser entity_parser_document. Qed.
Global Hint Resolve entity_parser_sound : sounds.
Lemma gazetteers_sound : sound d_gazetteer_metadata gazetteers_document.
Proof.
  apply (sound_ext (fun j => let* fs := fields [$"parsers_metadata"] j in
    match fs with [v] => let* a := required (d_vec d_entity_parser) v in Ok a | _ => Err EIo end)); [unfold d_gazetteer_metadata; one_field|].
  struct_sound d_gazetteer_metadata gazetteers_document.
Qed.

Lemma config_sound : sound d_parser_config config_document.
Proof.
  apply (sound_ext (fun j => let* fs := fields [$"ignore_stop_words"] j in
    match fs with [v] => let* a := defaulted false d_bool v in Ok a | _ => Err EIo end)); [unfold d_parser_config; one_field|].
  struct_sound d_parser_config config_document.
Qed.
Global Hint Resolve config_sound : sounds.
Lemma deterministic_sound o : sound (d_deterministic o) deterministic_document.
Proof. struct_sound d_deterministic deterministic_document. Qed.
Lemma scope_sound : sound d_entity_scope scope_document.
Proof. struct_sound d_entity_scope scope_document. Qed.
Global Hint Resolve scope_sound : sounds.
Lemma grouped_scope_sound : sound d_grouped_scope grouped_scope_document.
Proof. struct_sound d_grouped_scope grouped_scope_document. Qed.
Global Hint Resolve grouped_scope_sound : sounds.
Lemma lookup_sound o : sound (d_lookup o) lookup_document.
Proof. struct_sound d_lookup lookup_document. Qed.
Lemma filler_entry_sound : sound d_filler_metadata filler_entry_document.
Proof. struct_sound d_filler_metadata filler_entry_document. Qed.
Global Hint Resolve filler_entry_sound : sounds.
Lemma probabilistic_sound : sound d_probabilistic probabilistic_document.
Proof.
  apply (sound_ext (fun j => let* fs := fields [$"slot_fillers"] j in
    match fs with [v] => let* a := required (d_vec d_filler_metadata) v in Ok a | _ => Err EIo end)); [unfold d_probabilistic; one_field|].
  struct_sound d_probabilistic probabilistic_document.
Qed.

Lemma classifier_sound f : sound (d_classifier f) (classifier_document f).
Proof. struct_sound d_classifier classifier_document. Qed.
Lemma featurizer_sound : sound d_featurizer featurizer_document.
Proof. struct_sound d_featurizer featurizer_document. Qed.
Lemma tfidf_config_sound : sound d_tfidf_config tfidf_config_document.
Proof. struct_sound d_tfidf_config tfidf_config_document. Qed.
Lemma sklearn_sound f o : sound (d_sklearn f o) (sklearn_document f).
Proof. struct_sound d_sklearn sklearn_document. Qed.
Global Hint Resolve tfidf_config_sound sklearn_sound : sounds.
Lemma tfidf_sound f o : sound (d_tfidf f o) (tfidf_document f).
Proof. struct_sound d_tfidf tfidf_document. Qed.
Lemma cooc_config_sound : sound d_cooc_config cooc_config_document.
Proof. struct_sound d_cooc_config cooc_config_document. Qed.
Global Hint Resolve cooc_config_sound : sounds.
Lemma cooccurrence_sound o : sound (d_cooccurrence o) cooccurrence_document.
Proof.
  struct_sound d_cooccurrence cooccurrence_document.
  - destruct a2 as [[[? ?] ?] ?]. eexists; reflexivity.
  - destruct a2 as [[[? ?] ?] ?]. discriminate.
Qed.

Lemma factory_sound o : sound (d_factory o) factory_document.
Proof. struct_sound d_factory factory_document. Qed.
Global Hint Resolve factory_sound : sounds.
Lemma filler_config_sound o : sound (d_filler_config o) filler_config_document.
Proof. struct_sound d_filler_config filler_config_document. Qed.
Global Hint Resolve filler_config_sound : sounds.
Lemma filler_sound o : sound (d_filler o) filler_document.
Proof. struct_sound d_filler filler_document. Qed.
