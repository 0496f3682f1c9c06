(** Lemmas about archives of engines. *)
From Coq Require Import String List NArith ZArith Bool Arith Lia.
From Verif Require Import Base F32 M_Types M_Engine M_Prob M_Features M_Res M_Fs M_Json M_Load M_Inject M_Zip
  S_Inject S_Load S_Zip P_Base P_Effects P_Load P_Zip P_Move.
Import ListNotations.
Local Open Scope nat_scope.

Lemma tree_below f d rest : tree_like f -> rest <> [] -> f (d ++ rest) <> None -> d = [] \/ f d = Some Dir.
Proof.
  intros T. induction rest as [|y rest IH] using rev_ind; [contradiction|]. intros _ H.
  rewrite app_assoc in H. apply T in H as [H|H].
  - left. apply app_eq_nil in H. tauto.
  - destruct rest as [|z rest]; [rewrite app_nil_r in H; auto|]. apply IH; [discriminate|]. congruence.
Qed.

(** The last element with a property. *)
Lemma last_such {A} (P : A -> Prop) l : (forall a, P a \/ ~ P a) -> (exists a, In a l /\ P a) ->
  exists pre a post, l = pre ++ a :: post /\ P a /\ forall b, In b post -> ~ P b.
Proof.
  intros Dec. induction l as [|a l IH]; intros (b & I & H); [contradiction|].
  assert (D : (exists a, In a l /\ P a) \/ forall a, In a l -> ~ P a).
  { clear -Dec. induction l as [|c l [(a & I & H)|N]].
    - right. contradiction.
    - left. exists a. split; auto. right. exact I.
    - destruct (Dec c) as [H|H]; [left; exists c; split; auto; left; reflexivity|right].
      intros a [<-|I]; auto. }
  destruct D as [D|D].
  - destruct (IH D) as (pre & c & post & -> & Pc & N). exists (a :: pre), c, post. auto.
  - destruct I as [->|I]; [|exfalso; eapply D; eauto]. exists [], b, l. auto.
Qed.

Lemma packs_consistent n g d l : tree_like g -> g d = Some Dir -> packs n g d l -> consistent l.
Proof.
  intros T Hd (P1 & P2). split; [|split].
  - intros e I. apply P1. exact I.
  - intros e I N. destruct (P1 e I) as (_ & C & r & En & _ & F). split; auto. intros E'.
    apply names_of_iff in En, E'. congruence.
  - intros e e' I I' (names & rest & N & En & En' & C).
    destruct (P1 e I) as (_ & _ & r & Er & _ & F). apply names_of_iff in En, Er. subst names.
    destruct (P1 e' I') as (_ & _ & r' & Er' & D' & F').
    assert (E : r' = r ++ rest).
    { apply names_of_iff in En', Er'. rewrite Er in En'. simpl in En'. congruence. }
    subst r'. specialize (F N).
    destruct C as [C|C].
    + destruct (tree_below g (d ++ r) rest T C) as [Z|Z].
      * rewrite <- app_assoc. destruct (is_dir_name (z_name e')) eqn:Dn.
        -- rewrite D' by (apply dir_name_iff; exact Dn). discriminate.
        -- rewrite F' by (apply not_dir_name; exact Dn). discriminate.
      * apply app_eq_nil in Z as [-> ->]. simpl in *. congruence.
      * congruence.
    + destruct rest as [|y rest].
      * rewrite app_nil_r in D'. rewrite (D' C) in F. discriminate.
      * assert (C' : y :: rest <> []) by discriminate. destruct (tree_below g (d ++ r) _ T C') as [Z|Z].
        -- rewrite <- app_assoc, (D' C). discriminate.
        -- apply app_eq_nil in Z as [-> ->]. simpl in *. congruence.
        -- congruence.
Qed.

Section Pack.
  Context (io : op -> bool).
  Hypothesis Hio : forall o, io o = true.

  Lemma unpacked f D n g d l :
    directory f D -> tree_like f -> nothing_below f D -> tree_like g -> g d = Some Dir -> packs n g d l ->
    exists t, extract io f (map CName D) (Some l) = (t, Ok (map CName D ++ [CName n])) /\
      same_contents g d (apply_ops f t) (D ++ [n]).
  Proof.
    intros HD Tf Nb Tg Gd P. pose proof (packs_consistent _ _ _ _ Tg Gd P) as C.
    destruct P as (P1 & P2).
    assert (Hne : exists e rest, l = e :: rest /\ ~ entry_names (z_name e) []).
    { destruct (P2 []) as (e & r' & I & En); [rewrite app_nil_r; congruence|].
      destruct l as [|e0 rest]; [contradiction|]. exists e0, rest. split; auto. intros E0.
      destruct (P1 e0) as (_ & _ & r & Er & _); [left; reflexivity|]. apply names_of_iff in E0, Er. congruence. }
    destruct (proj2 (succeeds_iff io f D l HD Tf Nb Hio) (conj C Hne)) as (q & Hq).
    destruct (extract io f (map CName D) (Some l)) as [t r] eqn:E. cbn [snd] in Hq. subst r. exists t.
    assert (Hq : q = map CName D ++ [CName n]).
    { destruct (returned_dir io _ _ _ _ _ E) as (e & rest & n' & names & El & En & ->). inv El.
      destruct (P1 e) as (_ & _ & r & Er & _); [left; reflexivity|]. apply names_of_iff in En, Er. congruence. }
    subst q. split; auto. intros q. rewrite <- app_assoc. change ([n] ++ q) with (n :: q).
    pose proof E as E'. apply extract_ok in E' as (l' & El & Ea & _). inv El. rename l' into l.
    pose proof (all_trace io D l f HD) as T. rewrite Ea in T. cbn [fst] in T.
    assert (Tr' := trace_tree _ _ _ _ _ T Tf).
    destruct (empty_after io _ _ _ _ HD Nb Ea) as [_ K]. destruct (K (n :: q)) as [KF KD]; [discriminate|].
    destruct (extracted io f D l _ t HD E) as (X1 & X2 & X3).
    destruct (apply_ops f t (D ++ n :: q)) as [[c|]|] eqn:F.
    - destruct (KF c eq_refl) as (e & I & Dn & En).
      destruct (last_such (fun e => entry_names (z_name e) (n :: q)) l) as (pre & e1 & post & El & Pe1 & N1).
      { intros a. rewrite names_of_iff. destruct (list_eq_dec (list_eq_dec N.eq_dec) (names_of a) (n :: q)); auto. }
      { exists e. split; auto. apply names_of_iff. symmetry. exact En. }
      assert (I1 : In e1 l) by (rewrite El; apply in_elt).
      destruct (is_dir_name (z_name e1)) eqn:Dn1.
      + apply dir_name_iff in Dn1. pose proof (X2 e1 _ I1 Pe1 Dn1) as H.
        exfalso. assert (Z : apply_ops f t (D ++ n :: q) = Some Dir).
        { apply (H _ []); [symmetry; apply app_nil_r|]. destruct D; discriminate. }
        congruence.
      + apply not_dir_name in Dn1. pose proof (X3 pre e1 post _ El Pe1 Dn1 N1) as H. rewrite F in H. inv H.
        destruct (P1 e1 I1) as (_ & _ & r & Er & _ & G). apply names_of_iff in Er, Pe1.
        assert (r = q) by congruence. subst r. apply G. exact Dn1.
    - destruct (KD eq_refl) as (e & I & (rest & En) & Nd). destruct (P1 e I) as (_ & _ & r & Er & GD & GF).
      apply names_of_iff in Er. assert (Hr : r = q ++ rest) by (rewrite Er in En; simpl in En; congruence). subst r.
      destruct rest as [|y rest].
      + rewrite app_nil_r in *. destruct (is_dir_name (z_name e)) eqn:Dn; [|exfalso; apply Nd; auto].
        apply GD. apply dir_name_iff. exact Dn.
      + destruct (tree_below g (d ++ q) (y :: rest) Tg) as [Z|Z]; [discriminate| | |exact Z].
        * rewrite <- app_assoc. destruct (is_dir_name (z_name e)) eqn:Dn.
          -- rewrite GD by (apply dir_name_iff; exact Dn). discriminate.
          -- rewrite GF by (apply not_dir_name; exact Dn). discriminate.
        * apply app_eq_nil in Z as [-> ->]. exact Gd.
    - destruct (g (d ++ q)) eqn:G; auto. exfalso. destruct (P2 q) as (e & r' & I & En); [congruence|].
      apply in_split in I as (pre & post & El). destruct (all_ok io f D l t HD Ea _ _ _ El) as (_ & OD & OF).
      apply names_of_iff in En.
      assert (Z : apply_ops f t (D ++ n :: q) <> None); [|congruence].
      destruct (is_dir_name (z_name e)).
      + rewrite (OD eq_refl (D ++ n :: q) r'); [discriminate| |destruct D; discriminate].
        rewrite En. rewrite <- app_assoc. reflexivity.
      + destruct (OF eq_refl) as (_ & _ & Np & c & Fc & _).
        destruct r' as [|y r'].
        * rewrite app_nil_r in En. rewrite En in Fc. congruence.
        * apply directory_tree in Np; auto.
          rewrite (Np (D ++ n :: q) (removelast (y :: r'))); [discriminate| |destruct D; discriminate].
          rewrite En. change (n :: q ++ y :: r') with ((n :: q) ++ (y :: r')). rewrite removelast_app by discriminate.
          rewrite <- app_assoc. reflexivity.
  Qed.

  Lemma fresh_dir f T : T <> [] -> directory f (removelast T) -> tree_like f -> (forall r, f (T ++ r) = None) ->
    let f1 := apply_op f (OMkdir T) in directory f1 T /\ tree_like f1 /\ nothing_below f1 T.
  Proof.
    intros N D Tr Nb f1. destruct (exists_last N) as (D0 & m & ->). rewrite removelast_last in D.
    assert (Eq : names_eqb (D0 ++ [m]) (D0 ++ [m]) = true) by (apply names_eqb_spec; reflexivity).
    split; [|split].
    - apply directory_snoc.
      + intros a b E Na. unfold f1. simpl. destruct (names_eqb _ a); auto. apply (D a b E Na).
      + unfold f1. simpl. rewrite Eq. reflexivity.
    - intros q k H. unfold f1 in *. simpl in *. destruct (names_eqb (D0 ++ [m]) (q ++ [k])) eqn:E.
      + apply names_eqb_spec in E. apply app_inj_tail in E as [-> ->]. destruct q as [|y q]; [left; reflexivity|right].
        destruct (names_eqb _ (y :: q)); auto. apply (D (y :: q) []); [symmetry; apply app_nil_r|discriminate].
      + destruct (Tr q k H) as [->|Hq]; [left; reflexivity|right]. destruct (names_eqb _ q); auto.
    - intros r Nr. unfold f1. simpl. destruct (names_eqb (D0 ++ [m]) ((D0 ++ [m]) ++ r)) eqn:E; auto.
      apply names_eqb_spec in E. apply (f_equal (@length str)) in E. rewrite !app_length in E. destruct r; [contradiction|].
      simpl in E. lia.
  Qed.

  Lemma from_zip_packed x shape ngrams mx L fo fo' uo uo' f T n g p l :
    T <> [] -> directory f (removelast T) -> tree_like f -> (forall r, f (T ++ r) = None) ->
    tree_like g -> g (resolve p) = Some Dir -> packs n g (resolve p) l ->
    loaders_relative L ->
    (forall c, fo (p ++ map CName c) = fo' (map CName (T ++ n :: c))) ->
    (forall c, uo (p ++ map CName c) = uo' (map CName (T ++ n :: c))) ->
    (forall names j s, json_at L g (p ++ map CName names) j -> text_in s j -> plain s) ->
    (forall l, plain (ld_lang_name L l)) ->
    from_zip io x shape ngrams mx L fo' uo' f (Some (map CName T)) (Some l) = from_path x shape ngrams mx L fo uo g p.
  Proof.
    intros NT D Tr Nb Tg Gd P LR FO UO PL PLang. unfold from_zip. cbn [ok_or bind].
    assert (Rs : resolve (map CName T) = T) by (apply (resolve_under [] T)). rewrite Rs.
    destruct (fresh_dir f T NT D Tr Nb) as (D1 & T1 & N1).
    destruct (unpacked _ T n g (resolve p) l D1 T1 N1 Tg Gd P) as (t & E & SC).
    rewrite E. cbn [bind]. symmetry. apply from_path_moved; auto.
    - intros q. rewrite (SC q). change [CName n] with (map CName [n]). rewrite resolve_under, Rs. reflexivity.
    - intros c. rewrite FO. f_equal. rewrite map_app, <- app_assoc. reflexivity.
    - intros c. rewrite UO. f_equal. rewrite map_app, <- app_assoc. reflexivity.
  Qed.
End Pack.
