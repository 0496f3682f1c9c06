(** Lemmas about what an injection does to the files. *)
From Coq Require Import String List NArith ZArith Bool Arith Lia Permutation.
From Verif Require Import Base F32 M_Types M_Engine M_Feat M_Prob M_Features M_Res M_Fs M_Json M_Load M_Inject
  S_Base S_Load S_Inject P_Base P_Load P_Inject.
Import ListNotations.
Local Open Scope nat_scope.

Lemma names_eqb_spec a b : names_eqb a b = true <-> a = b.
Proof.
  unfold names_eqb. revert b. induction a as [|x a IH]; intros [|y b]; simpl; try (split; congruence).
  rewrite andb_true_iff, str_eqb_spec, IH. split; [intros [-> ->]; reflexivity|]. intros E. inv E. auto.
Qed.

Lemma apply_ops_app f t t' : apply_ops f (t ++ t') = apply_ops (apply_ops f t) t'.
Proof. apply fold_left_app. Qed.

Lemma names_below_spec d : forall q, names_below d q = true <-> at_or_below d q.
Proof.
  induction d as [|a d IH]; intros q; simpl; [split; auto; intros _; exists q; reflexivity|].
  destruct q as [|b q]; [split; [discriminate|]; intros (r & E); discriminate|].
  rewrite andb_true_iff, str_eqb_spec, IH. split.
  - intros [-> (r & ->)]. exists r. reflexivity.
  - intros (r & E). inv E. split; auto. exists r. reflexivity.
Qed.
Lemma at_or_below_refl d : at_or_below d d.
Proof. exists []. symmetry. apply app_nil_r. Qed.
Lemma at_or_below_trans a b c : at_or_below a b -> at_or_below b c -> at_or_below a c.
Proof. intros (r & ->) (s & ->). exists (r ++ s). symmetry. apply app_assoc. Qed.

Lemma apply_ops_other t : forall f q, (forall o, In o t -> ~ at_or_below (op_path o) q) -> apply_ops f t q = f q.
Proof.
  induction t as [|o t IH]; intros f q H; auto. simpl. rewrite IH; [|intros; apply H; right; assumption].
  specialize (H o (or_introl eq_refl)). destruct o as [p c|p|p]; simpl in *.
  - destruct (names_eqb p q) eqn:E; auto. apply names_eqb_spec in E as ->. exfalso. apply H, at_or_below_refl.
  - destruct (names_eqb p q) eqn:E; auto. apply names_eqb_spec in E as ->. exfalso. apply H, at_or_below_refl.
  - destruct (names_below p q) eqn:E; auto. apply names_below_spec in E. contradiction.
Qed.

(** All the changes are at or below [d]. *)
Definition within (d : list str) (t : list op) : Prop := forall o, In o t -> at_or_below d (op_path o).

Lemma within_other d t f q : within d t -> ~ at_or_below d q -> apply_ops f t q = f q.
Proof. intros W N. apply apply_ops_other. intros o I E. apply N. eapply at_or_below_trans; eauto. Qed.

Lemma prefixes {A} (p q l : list A) : (exists r, l = p ++ r) -> (exists r, l = q ++ r) ->
  (exists r, q = p ++ r) \/ (exists r, p = q ++ r).
Proof.
  revert q l. induction p as [|a p IH]; intros q l (r & ->) (r' & E); [left; eexists; reflexivity|].
  destruct q as [|b q]; [right; eexists; reflexivity|]. simpl in E. inv E.
  destruct (IH q (p ++ r)) as [(s & ->)|(s & ->)]; eauto.
  - left. exists s. reflexivity.
  - right. exists s. reflexivity.
Qed.

Lemma apart_same d d' t f : apart d d' -> within d t -> same_below d' f (apply_ops f t).
Proof.
  intros [A B] W q. symmetry. eapply within_other; eauto. intros C.
  destruct (prefixes d d' (d' ++ q) C) as [H|H]; [exists q; reflexivity|exact (A H)|exact (B H)].
Qed.

Lemma same_below_trans d f g h : same_below d f g -> same_below d g h -> same_below d f h.
Proof. intros A B q. rewrite (A q). apply B. Qed.
Lemma same_below_refl d f : same_below d f f.
Proof. intros q. reflexivity. Qed.

Lemma within_app d t t' : within d t -> within d t' -> within d (t ++ t').
Proof. intros A B o I. apply in_app_or in I as [I|I]; auto. Qed.
Lemma within_prefix d t t' : within d (t ++ t') -> within d t.
Proof. intros A o I. apply A. apply in_or_app. auto. Qed.

Lemma app_cut {A} (a b c d : list A) : a ++ b = c ++ d ->
  (exists m, c = a ++ m /\ b = m ++ d) \/ (exists m, a = c ++ m /\ d = m ++ b).
Proof.
  revert c. induction a as [|x a IH]; intros c E; [left; exists c; auto|].
  destruct c as [|y c]; simpl in E; [right; exists (x :: a); auto|]. inv E.
  destruct (IH c H1) as [(m & -> & ->)|(m & -> & ->)]; [left|right]; exists m; auto.
Qed.

Section WithParsers.
  Context (G : Gaz) (GO : gaz_ok G).

  (** One entity. *)
  Lemma entity_within v f d vs : within (resolve d) (fst (inject_entity G v f d vs)).
  Proof.
    unfold inject_entity. destruct (gz_load G f d) as [g| |]; try (intros o []).
    destruct (gz_inject G g vs true v) as [g'| |]; try (intros o []).
    pose proof (remove_within G GO f d) as W. destruct (gz_remove G f d) as [t1 r1]. simpl in W.
    destruct r1 as [u| |]; simpl; auto.
    pose proof (dump_within G GO (apply_ops f t1) d g') as W2.
    destruct (gz_dump G (apply_ops f t1) d g') as [t2 r2]. simpl in *. apply within_app; auto.
  Qed.

  Lemma entity_ok v f d vs t : inject_entity G v f d vs = (t, Ok tt) ->
    exists g g', gz_load G f d = Ok g /\ gz_inject G g vs true v = Ok g' /\ gz_load G (apply_ops f t) d = Ok g'.
  Proof.
    unfold inject_entity. destruct (gz_load G f d) as [g| |] eqn:E1; try discriminate.
    destruct (gz_inject G g vs true v) as [g'| |] eqn:E2; try discriminate.
    pose proof (remove_done G GO f d) as D. destruct (gz_remove G f d) as [t1 r1]. simpl in D.
    destruct r1 as [[]| |]; try discriminate. specialize (D eq_refl).
    pose proof (dump_done G GO (apply_ops f t1) d g' D) as D2.
    destruct (gz_dump G (apply_ops f t1) d g') as [t2 r2]. simpl in D2. intros H. inv H.
    assert (r2 = Ok tt) by (destruct r2 as [[]| |]; simpl in *; congruence).
    specialize (D2 H). exists g, g'. rewrite apply_ops_app. auto.
  Qed.

  (** In a complete update, the directory is gone at some point. *)
  Lemma entity_gone v f d vs t : inject_entity G v f d vs = (t, Ok tt) ->
    exists t1 t2, t = t1 ++ t2 /\ gone (apply_ops f t1) (resolve d).
  Proof.
    unfold inject_entity. destruct (gz_load G f d) as [g| |] eqn:E1; try discriminate.
    destruct (gz_inject G g vs true v) as [g'| |] eqn:E2; try discriminate.
    pose proof (remove_done G GO f d) as D. destruct (gz_remove G f d) as [t1 r1]. simpl in D.
    destruct r1 as [[]| |]; try discriminate. specialize (D eq_refl).
    destruct (gz_dump G (apply_ops f t1) d g') as [t2 r2]. intros H. inv H. eauto.
  Qed.

  Section All.
    Context (dirs : list (str * path)) (v : bool).
    (** Distinct entities, in separate directories. *)
    Definition sep (l : list (str * list GValue)) : Prop :=
      NoDup (hkeys l) /\
      forall e e' d d', In e (hkeys l) -> In e' (hkeys l) -> e <> e' ->
        hget str_eqb e dirs = Some d -> hget str_eqb e' dirs = Some d' -> apart (resolve d) (resolve d').

    Lemma sep_tail a l : sep (a :: l) -> sep l.
    Proof. intros [ND S]. inv ND. split; auto. intros e e' d d' I I'. apply S; right; assumption. Qed.
    Lemma sep_head e vs l e' d d' : sep ((e, vs) :: l) -> In e' (hkeys l) ->
      hget str_eqb e dirs = Some d -> hget str_eqb e' dirs = Some d' -> apart (resolve d) (resolve d').
    Proof.
      intros [ND S] I H H'. inv ND. eapply S; eauto; [left; reflexivity|right; assumption|].
      intros ->. contradiction.
    Qed.

    Lemma all_within l : forall f q,
      (forall e d, In e (hkeys l) -> hget str_eqb e dirs = Some d -> ~ at_or_below (resolve d) q) ->
      forall t1 t2, fst (inject_all G v f dirs l) = t1 ++ t2 -> apply_ops f t1 q = f q.
    Proof.
      induction l as [|[e vs] l IH]; intros f q N t1 t2; simpl.
      - destruct t1; [reflexivity|discriminate].
      - destruct (hget str_eqb e dirs) as [d|] eqn:H; [|destruct t1; [reflexivity|discriminate]].
        assert (W : within (resolve d) (fst (inject_entity G v f d vs))) by apply entity_within.
        destruct (inject_entity G v f d vs) as [t r]. simpl in W.
        assert (Nd : ~ at_or_below (resolve d) q) by (eapply N; [left; reflexivity|exact H]).
        destruct r as [[]| |]; simpl; try (intros ->; eapply within_other; [eapply within_prefix; exact W|exact Nd]).
        assert (N' : forall e d, In e (hkeys l) -> hget str_eqb e dirs = Some d -> ~ at_or_below (resolve d) q).
        { intros; eapply N; eauto. right. assumption. }
        specialize (IH (apply_ops f t) q N').
        destruct (inject_all G v (apply_ops f t) dirs l) as [t' r']. simpl in *. intros E.
        destruct (app_cut _ _ _ _ E) as [(m & -> & ->)|(m & -> & ->)].
        + rewrite apply_ops_app, (IH m t2 eq_refl). eapply within_other; eauto.
        + eapply within_other; [eapply within_prefix; exact W|exact Nd].
    Qed.

    (** [e] has its new parser in [f']. *)
    Definition new_parser (f f' : fs) (l : list (str * list GValue)) (e : str) : Prop :=
      exists d vs g g', hget str_eqb e dirs = Some d /\ In (e, vs) l /\ gz_load G f d = Ok g /\
        gz_inject G g vs true v = Ok g' /\ gz_load G f' d = Ok g'.

    Lemma all_ok l : forall f t, sep l -> inject_all G v f dirs l = (t, Ok tt) ->
      forall e, In e (hkeys l) -> new_parser f (apply_ops f t) l e.
    Proof.
      induction l as [|[e vs] l IH]; intros f t S H e0 I; [contradiction|]. simpl in H.
      destruct (hget str_eqb e dirs) as [d|] eqn:Hd; [|discriminate].
      destruct (inject_entity G v f d vs) as [t1 r1] eqn:E1.
      assert (W : within (resolve d) t1).
      { pose proof (entity_within v f d vs) as W. rewrite E1 in W. exact W. }
      destruct r1 as [[]| |]; try discriminate.
      destruct (inject_all G v (apply_ops f t1) dirs l) as [t2 r2] eqn:E2. inv H.
      rewrite apply_ops_app. destruct I as [<-|I].
      - destruct (entity_ok _ _ _ _ _ E1) as (g & g' & A & B & C).
        exists d, vs, g, g'. split; [exact Hd|]. split; [left; reflexivity|]. split; [exact A|]. split; [exact B|].
        rewrite <- C. symmetry. apply (load_local G GO). intros q. symmetry.
        apply (all_within l (apply_ops f t1) (resolve d ++ q)) with (t2 := []); [|rewrite E2, app_nil_r; reflexivity].
        intros e' d' I' Hd' C'. destruct (sep_head _ _ _ _ _ _ S I' Hd Hd') as [X Y].
        destruct (prefixes (resolve d) (resolve d') (resolve d ++ q)) as [P|P]; [eexists; reflexivity|exact C'|exact (X P)|exact (Y P)].
      - destruct (IH _ _ (sep_tail _ _ S) E2 e0 I) as (d' & vs' & g & g' & A & B & C & D & E).
        exists d', vs', g, g'. split; [exact A|]. split; [right; exact B|]. split; [|auto].
        rewrite <- C. apply (load_local G GO). apply apart_same with (d := resolve d); auto.
        eapply sep_head; eauto.
    Qed.

    (** At a crash point: one entity may be anything, those before are done, those after untouched. *)
    Lemma all_crash l : forall f t1 t2, sep l -> fst (inject_all G v f dirs l) = t1 ++ t2 ->
      exists e0, forall e d, In e (hkeys l) -> e <> e0 -> hget str_eqb e dirs = Some d ->
        same_below (resolve d) f (apply_ops f t1) \/ new_parser f (apply_ops f t1) l e.
    Proof.
      induction l as [|[e vs] l IH]; intros f t1 t2 S.
      - intros _. exists []. intros e d [].
      - simpl. destruct (hget str_eqb e dirs) as [d|] eqn:Hd.
        2:{ simpl. intros H. destruct t1; [|discriminate]. exists []. intros. left. apply same_below_refl. }
        destruct (inject_entity G v f d vs) as [t r] eqn:E1.
        assert (W : within (resolve d) t).
        { pose proof (entity_within v f d vs) as W. rewrite E1 in W. exact W. }
        assert (First : forall u, (exists w, t = u ++ w) -> forall e' d', In e' (e :: hkeys l) -> e' <> e ->
                  hget str_eqb e' dirs = Some d' -> same_below (resolve d') f (apply_ops f u)).
        { intros u (w & ->) e' d' I N Hd'. apply within_prefix in W. apply apart_same with (d := resolve d); auto.
          destruct I as [->|I]; [contradiction|]. eapply sep_head; eauto. }
        destruct r as [[]| |]; simpl.
        2,3: intros ->; exists e; intros e' d' I N Hd'; left; eapply First; eauto.
        specialize (IH (apply_ops f t)).
        destruct (inject_all G v (apply_ops f t) dirs l) as [t' r'] eqn:E2. simpl in *. intros E.
        destruct (app_cut _ _ _ _ E) as [(m & -> & ->)|(m & -> & ->)].
        2:{ exists e. intros e' d' I N Hd'. left. eapply First; eauto. }
        destruct (IH m t2 (sep_tail _ _ S) eq_refl) as (e0 & IH').
        exists e0. intros e' d' I N Hd'. rewrite apply_ops_app. destruct I as [<-|I].
        + right. rewrite Hd in Hd'. inv Hd'. destruct (entity_ok _ _ _ _ _ E1) as (g & g' & A & B & C).
          exists d', vs, g, g'. split; [exact Hd|]. split; [left; reflexivity|]. split; [exact A|]. split; [exact B|].
          rewrite <- C. symmetry. apply (load_local G GO). intros q. symmetry.
          apply (all_within l (apply_ops f t) (resolve d' ++ q)) with (t2 := t2); [|rewrite E2; reflexivity].
          intros e1 d1 I1 Hd1 C1. destruct (sep_head _ _ _ _ _ _ S I1 Hd Hd1) as [X Y].
          destruct (prefixes (resolve d') (resolve d1) (resolve d' ++ q)) as [P|P];
            [eexists; reflexivity|exact C1|exact (X P)|exact (Y P)].
        + assert (N' : e' <> e) by (intros ->; destruct S as [ND _]; inv ND; contradiction).
          assert (B : same_below (resolve d') f (apply_ops f t)).
          { apply (First t) with (e' := e'); auto. exists []. symmetry. apply app_nil_r. }
          destruct (IH' e' d' I N Hd') as [O|(d2 & vs' & g & g' & A & B' & C & D & F)].
          * left. eapply same_below_trans; eauto.
          * right. rewrite Hd' in A. inv A. exists d2, vs', g, g'. split; [exact Hd'|]. split; [right; exact B'|].
            split; [|auto]. rewrite <- C. apply (load_local G GO). exact B.
    Qed.

    Lemma all_gone l : forall f t, sep l -> inject_all G v f dirs l = (t, Ok tt) ->
      forall e d, In e (hkeys l) -> hget str_eqb e dirs = Some d ->
      exists t1 t2, t = t1 ++ t2 /\ gone (apply_ops f t1) (resolve d).
    Proof.
      induction l as [|[e vs] l IH]; intros f t S H e0 d0 I Hd0; [contradiction|]. simpl in H.
      destruct (hget str_eqb e dirs) as [d|] eqn:Hd; [|discriminate].
      destruct (inject_entity G v f d vs) as [t1 r1] eqn:E1. destruct r1 as [[]| |]; try discriminate.
      destruct (inject_all G v (apply_ops f t1) dirs l) as [t2 r2] eqn:E2. inv H.
      destruct I as [<-|I].
      - cbn [fst] in Hd0. rewrite Hd in Hd0. inv Hd0. destruct (entity_gone _ _ _ _ _ E1) as (u & w & -> & Hg).
        exists u, (w ++ t2). split; [symmetry; apply app_assoc|exact Hg].
      - destruct (IH _ _ (sep_tail _ _ S) E2 e0 d0 I Hd0) as (u & w & -> & Hg).
        exists (t1 ++ u), w. split; [apply app_assoc|]. rewrite apply_ops_app. exact Hg.
    Qed.

    (** A missing parser makes the injection fail. *)
    Lemma all_missing l : forall f t r, sep l -> inject_all G v f dirs l = (t, r) ->
      forall e d, In e (hkeys l) -> hget str_eqb e dirs = Some d -> gone f (resolve d) -> r <> Ok tt.
    Proof.
      intros f t r S H e d I Hd Hg ->. destruct (all_ok l f t S H e I) as (d' & vs & g & g' & A & _ & C & _).
      rewrite Hd in A. inv A. destruct (load_missing G GO f d' Hg) as (er & E). congruence.
    Qed.

    Lemma all_no_index_panic l : (forall e, In e (hkeys l) -> exists d, hget str_eqb e dirs = Some d) ->
      (forall f d, gz_load G f d <> Panic) -> (forall g vs b b', gz_inject G g vs b b' <> Panic) ->
      (forall f d, snd (gz_remove G f d) <> Panic) -> (forall f d g, snd (gz_dump G f d g) <> Panic) ->
      forall f, snd (inject_all G v f dirs l) <> Panic.
    Proof.
      intros K P1 P2 P3 P4. induction l as [|[e vs] l IH]; intros f; [discriminate|]. simpl.
      destruct (K e) as (d & ->); [left; reflexivity|].
      assert (NP : snd (inject_entity G v f d vs) <> Panic).
      { unfold inject_entity. specialize (P1 f d). destruct (gz_load G f d) as [g| |]; try discriminate; [|contradiction].
        specialize (P2 g vs true v). destruct (gz_inject G g vs true v) as [g'| |]; try discriminate; [|contradiction].
        specialize (P3 f d). destruct (gz_remove G f d) as [t1 r1]. destruct r1 as [u| |]; try discriminate; [|contradiction].
        specialize (P4 (apply_ops f t1) d g'). destruct (gz_dump G (apply_ops f t1) d g') as [t2 r2].
        simpl in *. destruct r2; simpl; congruence. }
      destruct (inject_entity G v f d vs) as [t r]. destruct r as [[]| |]; simpl in *; try discriminate; [|contradiction].
      assert (K' : forall e, In e (hkeys l) -> exists d, hget str_eqb e dirs = Some d) by (intros; apply K; right; assumption).
      specialize (IH K' (apply_ops f t)). destruct (inject_all G v (apply_ops f t) dirs l). exact IH.
    Qed.
  End All.
End WithParsers.
