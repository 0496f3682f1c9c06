(** Proofs for the alternatives of C84. *)
From Coq Require Import String List NArith ZArith Bool Arith Lia.
From Verif Require Import Base F32 M_Types M_Engine M_Det M_Lookup M_Fs M_Json M_Load S_Base S_Load S_Match S_Made S_Seeds S_Narrow
  P_Base P_Engine.
Import ListNotations.
Local Open Scope nat_scope.

Lemma passes_may_list wl e : passes_filter wl e = true <-> may_list wl e.
Proof.
  unfold passes_filter, may_list, allowed. destruct (ir_name e); [|tauto]. destruct wl; [|tauto].
  apply smem_spec.
Qed.
Lemma filter_narrower wl wl' l : narrower wl' wl -> filter (passes_filter wl') (filter (passes_filter wl) l) = filter (passes_filter wl') l.
Proof.
  intros N. induction l as [|e l IH]; [reflexivity|]. cbn [filter].
  destruct (passes_filter wl e) eqn:E; cbn [filter].
  - destruct (passes_filter wl' e); [rewrite IH; reflexivity|exact IH].
  - destruct (passes_filter wl' e) eqn:E'; [|exact IH]. exfalso.
    apply passes_may_list in E'. unfold passes_filter, may_list in *. destruct (ir_name e); [|discriminate].
    apply N in E'. assert (M : passes_filter wl (mkIR (Some s) f0) = true) by (apply passes_may_list; exact E').
    unfold passes_filter in M. cbn in M. congruence.
Qed.
Lemma first_listed_filter wl l e : first_listed wl l e -> exists t, filter (passes_filter wl) l = e :: t.
Proof.
  intros (l1 & l2 & -> & M & N). rewrite filter_app. cbn [filter]. apply passes_may_list in M. rewrite M.
  assert (Z : filter (passes_filter wl) l1 = []).
  { clear M. induction l1 as [|a l1 IH]; [reflexivity|]. cbn [filter]. destruct (passes_filter wl a) eqn:E.
    - exfalso. apply (N a (or_introl eq_refl)). apply passes_may_list. exact E.
    - apply IH. intros b J. apply N. right. exact J. }
  rewrite Z. eexists. reflexivity.
Qed.
Lemma filter_firstn_prefix {A} (q : A -> bool) k : forall l, exists rest, filter q l = filter q (firstn k l) ++ rest /\ length (filter q (firstn k l)) <= k.
Proof.
  induction k as [|k IH]; intros l; [exists (filter q l); split; [reflexivity|cbn; lia]|].
  destruct l as [|a l]; [exists []; split; [reflexivity|cbn; lia]|]. cbn [firstn filter].
  destruct (IH l) as (rest & E & Len). destruct (q a).
  - exists rest. rewrite E at 1. split; [reflexivity|cbn [length]; lia].
  - exists rest. split; [exact E|lia].
Qed.
Lemma in_firstn_filter {A} (q : A -> bool) k l a : In a (firstn k l) -> q a = true -> In a (firstn k (filter q l)).
Proof.
  intros I Q. destruct (filter_firstn_prefix q k l) as (rest & E & Len). rewrite E, firstn_app, firstn_all2 by exact Len.
  apply in_or_app. left. apply filter_In. split; assumption.
Qed.
Lemma firstn_more {A} (a : A) k : forall z, In a (firstn k z) -> In a (firstn (S k) z).
Proof.
  induction k as [|k IH]; intros z I; [destruct I|]. destruct z as [|c z]; [destruct I|].
  destruct I as [->|I]; [left; reflexivity|]. right. apply IH. exact I.
Qed.
(** The element is not the first one that [q] keeps. *)
Lemma in_firstn_filter_tl {A} (q : A -> bool) k : forall l pre a post, firstn k l = pre ++ a :: post -> q a = true ->
  (exists b, In b pre /\ q b = true) -> In a (firstn k (skipn 1 (filter q l))).
Proof.
  induction k as [|k IH]; intros l pre a post E Q (b & I & Qb).
  - destruct pre; discriminate.
  - destruct l as [|c l]; [destruct pre; discriminate|]. cbn [firstn] in E.
    destruct pre as [|c' pre]; [destruct I|]. injection E as <- E.
    assert (J : In a (firstn k l)) by (rewrite E; apply in_or_app; right; left; reflexivity).
    cbn [filter]. destruct (q c) eqn:Qc.
    + cbn [skipn]. apply (in_firstn_filter q) in J; [|exact Q].
      apply firstn_more. exact J.
    + destruct I as [<-|I]; [congruence|].
      apply firstn_more. apply (IH l pre a post E Q). exists b. split; assumption.
Qed.

Lemma mapM_alternatives x en input n l alts : mapM (alternative_of x en input n) l = Ok alts ->
  Forall2 (fun e a => al_intent a = e /\ alternative_of x en input n e = Ok a) l alts.
Proof.
  intros H. apply mapM_ok_Forall2 in H. induction H as [|e a l alts E H IH]; constructor; auto. split; [|exact E].
  unfold alternative_of in E. bind_inv E. inv E. reflexivity.
Qed.
Lemma parse_alternatives_of x o1 o2 en input w b wl k n r l : get_intents_whitelist o1 en w b = Ok wl -> get_intents o2 en input = Ok l ->
  parse_with_alternatives x o1 o2 en input w b k n = Ok r ->
  Forall2 (fun e a => al_intent a = e /\ alternative_of x en input n e = Ok a) (firstn k (skipn 1 (filter (passes_filter wl) l))) (ps_alternatives r).
Proof.
  intros W Gi P. unfold parse_with_alternatives in P. rewrite W in P. cbn [bind] in P. bind_inv P.
  destruct (Nat.eqb_spec k 0) as [->|N].
  - inv P. assert (Z : ps_alternatives r = []); [|rewrite Z; constructor].
    clear - E. revert E. generalize f0. induction (en_parsers en) as [|q ps IH]; intros s E; cbn [parse_loop] in E; [inv E; reflexivity|].
    bind_inv E. destruct (ir_name (pr_intent a)); [|eapply IH; eauto]. bind_inv E. inv E. reflexivity.
  - rewrite Gi in P. cbn [bind] in P. bind_inv P. inv P. cbn [ps_alternatives]. apply mapM_alternatives. exact E0.
Qed.
Lemma Forall2_in_r {A B} (R : A -> B -> Prop) l l' b : Forall2 R l l' -> In b l' -> exists a, In a l /\ R a b.
Proof. intros F. induction F as [|x y l l' H F IH]; [intros []|]. intros [<-|I]; [eauto|]. 
  - exists x. split; [left; reflexivity|exact H].
  - destruct (IH I) as (a & J & S). exists a. split; [right; exact J|exact S]. Qed.
Lemma Forall2_in_l {A B} (R : A -> B -> Prop) l l' a : Forall2 R l l' -> In a l -> exists b, In b l' /\ R a b.
Proof. intros F. induction F as [|x y l l' H F IH]; [intros []|]. intros [<-|I].
  - exists y. split; [left; reflexivity|exact H].
  - destruct (IH I) as (b & J & S). exists b. split; [right; exact J|exact S]. Qed.

Lemma alternatives_kept x o1 o1' o2 en input w b w' b' wl wl' k n r r' l e :
  get_intents_whitelist o1 en w b = Ok wl -> get_intents_whitelist o1' en w' b' = Ok wl' -> narrower wl' wl ->
  get_intents o2 en input = Ok l -> first_listed wl l e -> may_list wl' e ->
  parse_with_alternatives x o1 o2 en input w b k n = Ok r -> parse_with_alternatives x o1' o2 en input w' b' k n = Ok r' ->
  forall a, In a (ps_alternatives r) -> may_list wl' (al_intent a) -> In a (ps_alternatives r').
Proof.
  intros W W' N Gi F M P P' a I Ma.
  assert (A := parse_alternatives_of _ _ _ _ _ _ _ _ _ _ _ _ W Gi P).
  assert (A' := parse_alternatives_of _ _ _ _ _ _ _ _ _ _ _ _ W' Gi P').
  destruct (first_listed_filter _ _ _ F) as (t & Et). rewrite <- (filter_narrower wl wl' l N), Et in A'. rewrite Et in A.
  cbn [filter] in A'. apply passes_may_list in M. rewrite M in A'. cbn [skipn] in A, A'.
  destruct (Forall2_in_r _ _ _ _ A I) as (z & J & <- & Ez). apply passes_may_list in Ma.
  destruct (Forall2_in_l _ _ _ _ A' (in_firstn_filter _ _ _ _ J Ma)) as (a' & J' & _ & Ez'). congruence.
Qed.
Lemma alternatives_but_first x o1 o1' o2 en input w b w' b' wl wl' k n r r' l e :
  get_intents_whitelist o1 en w b = Ok wl -> get_intents_whitelist o1' en w' b' = Ok wl' -> narrower wl' wl ->
  get_intents o2 en input = Ok l -> first_listed wl l e -> ~ may_list wl' e ->
  parse_with_alternatives x o1 o2 en input w b k n = Ok r -> parse_with_alternatives x o1' o2 en input w' b' k n = Ok r' ->
  forall pre a post, ps_alternatives r = pre ++ a :: post -> may_list wl' (al_intent a) ->
  (In a (ps_alternatives r') \/ first_listed wl' l (al_intent a)) /\
  ((exists a0, In a0 pre /\ may_list wl' (al_intent a0)) -> In a (ps_alternatives r')).
Proof.
  intros W W' N Gi F M P P' pre a post Ea Ma.
  assert (A := parse_alternatives_of _ _ _ _ _ _ _ _ _ _ _ _ W Gi P).
  assert (A' := parse_alternatives_of _ _ _ _ _ _ _ _ _ _ _ _ W' Gi P').
  destruct (first_listed_filter _ _ _ F) as (t & Et). rewrite <- (filter_narrower wl wl' l N), Et in A'. rewrite Et in A.
  cbn [filter] in A'. destruct (passes_filter wl' e) eqn:Pe; [apply passes_may_list in Pe; contradiction|]. cbn [skipn] in A.
  apply passes_may_list in Ma.
  rewrite Ea in A. apply Forall2_app_inv_r in A as (z1 & z2 & A1 & A2 & Ez). inversion A2 as [|z ? z3 ? [Az Az'] A3]; subst.
  assert (Sub : (exists a0, In a0 pre /\ may_list wl' (al_intent a0)) -> In a (ps_alternatives r')).
  { intros (a0 & I0 & M0). destruct (Forall2_in_r _ _ _ _ A1 I0) as (b0 & J0 & E0 & _).
    assert (Q : In (al_intent a) (firstn k (skipn 1 (filter (passes_filter wl') t)))).
    { eapply in_firstn_filter_tl; [exact Ez|exact Ma|]. exists b0. split; [exact J0|]. apply passes_may_list. rewrite <- E0. exact M0. }
    destruct (Forall2_in_l _ _ _ _ A' Q) as (a' & J' & _ & Ez'). congruence. }
  split; [|exact Sub].
  destruct (existsb (fun c => passes_filter wl' c) z1) eqn:X.
  - left. apply Sub. apply existsb_exists in X as (c & Ic & Qc). destruct (Forall2_in_l _ _ _ _ A1 Ic) as (a0 & I0 & E0 & _).
    exists a0. split; [exact I0|]. rewrite E0. apply passes_may_list. exact Qc.
  - right. assert (Z : forall c, In c (e :: z1) -> passes_filter wl' c = false).
    { intros c [<-|Ic]; [exact Pe|]. destruct (passes_filter wl' c) eqn:Q; [|reflexivity].
      assert (existsb (fun c => passes_filter wl' c) z1 = true) by (apply existsb_exists; eauto). congruence. }
    assert (Ft : filter (passes_filter wl) l = (e :: z1) ++ al_intent a :: z3 ++ skipn k t).
    { rewrite Et. cbn [app]. f_equal. rewrite <- (firstn_skipn k t) at 1. rewrite Ez, <- app_assoc. reflexivity. }
    clear - Ft Z Ma N. unfold first_listed. revert Ft. generalize (e :: z1) Z. clear Z. intros zs Z. revert zs Z.
    induction l as [|c l IH]; intros zs Z Ft; [destruct zs; discriminate|]. cbn [filter] in Ft.
    destruct (passes_filter wl c) eqn:Pc.
    + destruct zs as [|c' zs].
      * injection Ft as -> _. exists [], l. split; [reflexivity|]. split; [apply passes_may_list; exact Ma|]. intros ? [].
      * injection Ft as -> Ft. destruct (IH zs) as (l1 & l2 & -> & M1 & M2); [intros; apply Z; right; assumption|exact Ft|].
        exists (c' :: l1), l2. split; [reflexivity|]. split; [exact M1|]. intros q [<-|J]; [|apply M2; exact J].
        rewrite <- passes_may_list, (Z c') by (left; reflexivity). discriminate.
    + destruct (IH zs Z Ft) as (l1 & l2 & -> & M1 & M2). exists (c :: l1), l2. split; [reflexivity|]. split; [exact M1|].
      intros q [<-|J]; [|apply M2; exact J]. intros Mq.
      assert (passes_filter wl c = true); [|congruence]. apply passes_may_list. unfold may_list in *. destruct (ir_name c); [|exact Logic.I].
      apply N. exact Mq.
Qed.
