(** Lemmas about threads that share an engine. *)
From Coq Require Import String List NArith ZArith Bool Arith Lia.
From Verif Require Import Base F32 M_Types M_Engine M_Prob M_Filler M_Cache M_Res M_Fs M_Json M_Load M_Threads
                          S_Threads P_Base P_Cache P_Load.
Import ListNotations.
Local Open Scope nat_scope.

Lemma nth_put {A} (l : list A) i j a : i < length l ->
  nth_error (put l i a) j = if Nat.eq_dec j i then Some a else nth_error l j.
Proof.
  intros H. unfold put. revert i j H. induction l as [|b l IH]; intros i j H; cbn [length] in H; [lia|].
  destruct i as [|i]; cbn [firstn skipn app].
  - destruct j; cbn [nth_error]; destruct (Nat.eq_dec _ _); try reflexivity; lia.
  - destruct j as [|j]; cbn [nth_error]; [destruct (Nat.eq_dec 0 (S i)); [lia|reflexivity]|].
    change (skipn (S (S i)) (b :: l)) with (skipn (S i) l). rewrite IH by lia.
    destruct (Nat.eq_dec j i), (Nat.eq_dec (S j) (S i)); try reflexivity; lia.
Qed.
Lemma nth_lt {A} (l : list A) i a : nth_error l i = Some a -> i < length l.
Proof. intros H. apply nth_error_Some. congruence. Qed.

Section Threads.
  Context (pt : Parts) {R : Type}.
  Notation Threads := (Threads (R := R)).

  Lemma ask_plain q : ask (plain_parts pt) q = unlocked pt q.
  Proof. destruct q; reflexivity. Qed.

  (** ** What is behind each lock *)
  Definition same (l : lock) (c c' : Contents) : Prop :=
    match l with
    | LBuiltin => ct_builtin c' = ct_builtin c
    | LCustom => ct_custom c' = ct_custom c
    | LTagger t => ct_items c' t = ct_items c t
    end.
  Definition okc (l : lock) (c : Contents) : Prop :=
    match l with
    | LBuiltin => valid (pt_builtin pt) (ct_builtin c)
    | LCustom => valid (pt_custom pt) (ct_custom c)
    | LTagger _ => True
    end.
  Lemma same_refl l c : same l c c.
  Proof. destruct l; reflexivity. Qed.
  Lemma same_trans l a b c : same l a b -> same l b c -> same l a c.
  Proof. destruct l; cbn [same]; congruence. Qed.
  Lemma okc_same l c c' : same l c c' -> okc l c -> okc l c'.
  Proof. destruct l; cbn [same okc]; auto; intros ->; auto. Qed.

  Fixpoint good (l : lock) (q : query) (w : work) (c : Contents) : Prop :=
    match w with
    | Done a => a = unlocked pt q /\ okc l c
    | Then ch nx => forall c', same l c c' -> (forall m, m <> l -> same m c' (ch c')) /\ good l q (nx c') (ch c')
    end.
  Lemma good_same l q w c c' : same l c c' -> good l q w c -> good l q w c'.
  Proof.
    intros H. destruct w as [a|ch nx]; cbn [good].
    - intros (E & O). split; [exact E|]. eapply okc_same; eassumption.
    - intros G c2 H2. apply G. eapply same_trans; eassumption.
  Qed.

  Lemma good_work q l c : lock_of q = Some l -> okc l c -> good l q (work_of pt q) c.
  Proof.
    destruct q as [s k b n|s k n|t fs]; cbn [lock_of]; intros HL.
    - destruct b; [|discriminate]. injection HL as <-. cbn [okc work_of unlocked]. unfold cache_work.
      set (key := mkKey (pt_lower pt s) k n). intros V. cbn [good same]. intros c1 S1. rewrite <- S1 in V. clear S1.
      split; [intros m Hm; destruct m; [congruence|reflexivity|reflexivity]|].
      destruct (lru_get key (ct_builtin c1)) as [[v|] c'] eqn:E; cbn [fst snd].
      + cbn [good]. destruct (valid_get _ _ _ _ _ V E) as (E1 & E2). cbn [ck_input ck_kinds ck_alts key] in E1.
        cbn [unlocked]. rewrite E1. split; [reflexivity|]. cbn [okc set_builtin ct_builtin]. exact E2.
      + apply get_miss in E. destruct E as (-> & _). cbn [good]. intros c2 S2.
        split; [intros; apply same_refl|]. cbn [same set_builtin ct_builtin] in S2. rewrite <- S2 in V.
        destruct (pt_builtin pt (pt_lower pt s) k n) as [v|e|] eqn:E; cbn [good unlocked]; rewrite ?E.
        * cbn [same]. intros c3 S3. rewrite <- S3 in V.
          split; [intros m Hm; destruct m; [congruence|reflexivity|reflexivity]|].
          split; [reflexivity|]. cbn [okc set_builtin ct_builtin]. apply valid_insert; [exact V|exact E].
        * split; [reflexivity|]. exact V.
        * split; [reflexivity|]. exact V.
    - injection HL as <-. cbn [okc work_of unlocked]. unfold cache_work.
      set (key := mkKey (pt_lower pt s) k n). intros V. cbn [good same]. intros c1 S1. rewrite <- S1 in V. clear S1.
      split; [intros m Hm; destruct m; [reflexivity|congruence|reflexivity]|].
      destruct (lru_get key (ct_custom c1)) as [[v|] c'] eqn:E; cbn [fst snd].
      + cbn [good]. destruct (valid_get _ _ _ _ _ V E) as (E1 & E2). cbn [ck_input ck_kinds ck_alts key] in E1.
        cbn [unlocked]. rewrite E1. split; [reflexivity|]. cbn [okc set_custom ct_custom]. exact E2.
      + apply get_miss in E. destruct E as (-> & _). cbn [good]. intros c2 S2.
        split; [intros; apply same_refl|]. cbn [same set_custom ct_custom] in S2. rewrite <- S2 in V.
        destruct (pt_custom pt (pt_lower pt s) k n) as [v|e|] eqn:E; cbn [good unlocked]; rewrite ?E.
        * cbn [same]. intros c3 S3. rewrite <- S3 in V.
          split; [intros m Hm; destruct m; [reflexivity|congruence|reflexivity]|].
          split; [reflexivity|]. cbn [okc set_custom ct_custom]. apply valid_insert; [exact V|exact E].
        * split; [reflexivity|]. exact V.
        * split; [reflexivity|]. exact V.
    - injection HL as <-. intros _. cbn [work_of tag_work good same]. intros c1 _.
      split.
      { intros m Hm. destruct m as [| |u]; [reflexivity|reflexivity|]. cbn [same set_items ct_items].
        destruct (path_eq_dec u t) as [->|]; [congruence|reflexivity]. }
      intros c2 S2. cbn [set_items ct_items] in S2. destruct (path_eq_dec t t) as [_|N]; [|congruence].
      split; [intros; apply same_refl|]. rewrite S2. split; [reflexivity|exact I].
  Qed.

  (** ** The invariant *)
  Definition from_parts (s : Threads) (tr : trace) : Prop :=
    forall q a, In (q, a) tr -> a = unlocked pt q \/ exists l, ts_poisoned s l = true.
  Record inv_ (programs : list (list method)) (s : Threads) : Prop := mkInv {
    iv_free : forall l, ts_locks s l = None -> okc l (ts_contents s);
    iv_held : forall l i, ts_locks s l = Some i <-> holds s i l;
    iv_good : forall i tr q w todo dn l, nth_error (ts_workers s) i = Some (mkWorker (Holding tr q w) todo dn) ->
      lock_of q = Some l -> good l q w (ts_contents s);
    iv_locked : forall i tr q w todo dn, nth_error (ts_workers s) i = Some (mkWorker (Holding tr q w) todo dn) ->
      lock_of q <> None;
    iv_calling : forall i tr todo dn, nth_error (ts_workers s) i = Some (mkWorker (Calling tr) todo dn) -> from_parts s tr;
    iv_holding : forall i tr q w todo dn, nth_error (ts_workers s) i = Some (mkWorker (Holding tr q w) todo dn) -> from_parts s tr;
    iv_done : forall i w c r, nth_error (ts_workers s) i = Some w -> In (c, r) (wk_done w) ->
      r = c (plain_parts pt) \/ exists l, ts_poisoned s l = true;
    iv_poison : forall l, ts_poisoned s l = true -> exists q, lock_of q = Some l /\ panics pt q;
    iv_order : forall i w, nth_error (ts_workers s) i = Some w -> nth_error programs i = Some (map fst (wk_done w) ++ wk_todo w) }.

  Lemma start_inv programs : inv_ programs (tstart programs).
  Proof.
    assert (W : forall i w, nth_error (ts_workers (tstart (R := R) programs)) i = Some w ->
                exists p, nth_error programs i = Some p /\ w = mkWorker Between p []).
    { intros i w H. unfold tstart in H. cbn [ts_workers] in H. rewrite nth_error_map in H.
      destruct (nth_error programs i) as [p|]; [|discriminate]. exists p. split; [reflexivity|]. inversion H. reflexivity. }
    split.
    - intros l _. destruct l; cbn; [apply valid_nil|apply valid_nil|exact I].
    - intros l i. split; [discriminate|]. intros (tr & q & w & todo & dn & H & _). apply W in H.
      destruct H as (p & _ & H). discriminate.
    - intros i tr q w todo dn l H. apply W in H. destruct H as (p & _ & H). discriminate.
    - intros i tr q w todo dn H. apply W in H. destruct H as (p & _ & H). discriminate.
    - intros i tr todo dn H. apply W in H. destruct H as (p & _ & H). discriminate.
    - intros i tr q w todo dn H. apply W in H. destruct H as (p & _ & H). discriminate.
    - intros i w c r H HI. apply W in H. destruct H as (p & _ & ->). destruct HI.
    - discriminate.
    - intros i w H. apply W in H. destruct H as (p & H & ->). exact H.
  Qed.

  Lemma determined_plain (tr : trace) (c : method (R := R)) r :
    (forall q a, In (q, a) tr -> a = unlocked pt q) -> determined tr c r -> r = c (plain_parts pt).
  Proof. intros H D. symmetry. apply D. intros q a HI. rewrite ask_plain. symmetry. apply H. exact HI. Qed.

  Lemma poison_lemma q a : a = unlocked pt q -> is_panic a = true -> panics pt q.
  Proof.
    intros -> H. unfold panics. rewrite ask_plain. unfold is_panic in H.
    destruct (unlocked pt q) as [[]|[]|[]]; try discriminate; reflexivity.
  Qed.

  Lemma from_parts_all s tr : from_parts s tr -> (forall q a, In (q, a) tr -> a = unlocked pt q) \/ exists l, ts_poisoned s l = true.
  Proof.
    induction tr as [|[q a] tr IH]; intros H; [left; intros q a []|].
    destruct (H q a (or_introl eq_refl)) as [E|E]; [|right; exact E].
    destruct IH as [IH|IH]; [intros q' a' HI; apply H; right; exact HI| |right; exact IH].
    left. intros q' a' [[= <- <-]|HI]; [exact E|apply IH; exact HI].
  Qed.

  (** A step that changes one worker, and neither locks nor contents. *)
  Lemma quiet_inv programs ct lk po ws i w w' :
    inv_ programs (mkThreads ct lk po ws) -> nth_error ws i = Some w ->
    (forall tr q k, wk_position w <> Holding tr q k) -> (forall tr q k, wk_position w' <> Holding tr q k) ->
    (forall tr, wk_position w' = Calling tr -> from_parts (mkThreads ct lk po ws) tr) ->
    (forall c r, In (c, r) (wk_done w') -> In (c, r) (wk_done w) \/ r = c (plain_parts pt) \/ exists l, po l = true) ->
    map fst (wk_done w') ++ wk_todo w' = map fst (wk_done w) ++ wk_todo w ->
    inv_ programs (mkThreads ct lk po (put ws i w')).
  Proof.
    intros I Hw N N' HT HD HO. destruct I. cbn [ts_contents ts_locks ts_poisoned ts_workers] in *.
    assert (P : forall j v, nth_error (put ws i w') j = Some v -> (j = i /\ v = w') \/ nth_error ws j = Some v).
    { intros j v H. rewrite nth_put in H by (eapply nth_lt; exact Hw).
      destruct (Nat.eq_dec j i); [left; split; congruence|right; exact H]. }
    assert (P' : forall j v tr q k, nth_error ws j = Some v -> wk_position v = Holding tr q k -> nth_error (put ws i w') j = Some v).
    { intros j v tr q k H E. rewrite nth_put by (eapply nth_lt; exact Hw).
      destruct (Nat.eq_dec j i) as [->|]; [|exact H]. exfalso. rewrite Hw in H. injection H as <-. eapply N, E. }
    split; cbn [ts_contents ts_locks ts_poisoned ts_workers].
    - exact iv_free0.
    - intros l j. rewrite iv_held0. split; intros (tr & q & k & todo & dn & H & HL); cbn [ts_workers] in H.
      + exists tr, q, k, todo, dn. split; [eapply P'; [exact H|reflexivity]|exact HL].
      + destruct (P _ _ H) as [(_ & E)|E]; [exfalso; eapply N'; rewrite <- E; reflexivity|].
        exists tr, q, k, todo, dn. split; [exact E|exact HL].
    - intros j tr q k todo dn l H HL. destruct (P _ _ H) as [(_ & E)|E]; [exfalso; eapply N'; rewrite <- E; reflexivity|].
      eapply iv_good0; eassumption.
    - intros j tr q k todo dn H. destruct (P _ _ H) as [(_ & E)|E]; [exfalso; eapply N'; rewrite <- E; reflexivity|].
      eapply iv_locked0; exact E.
    - intros j tr todo dn H. destruct (P _ _ H) as [(_ & E)|E]; [apply HT; rewrite <- E; reflexivity|].
      exact (iv_calling0 _ _ _ _ E).
    - intros j tr q k todo dn H. destruct (P _ _ H) as [(_ & E)|E]; [exfalso; eapply N'; rewrite <- E; reflexivity|].
      exact (iv_holding0 _ _ _ _ _ _ E).
    - intros j v c r H HI. destruct (P _ _ H) as [(_ & ->)|E]; [|eapply iv_done0; eassumption].
      destruct (HD _ _ HI) as [HI'|HI']; [eapply iv_done0; eassumption|exact HI'].
    - exact iv_poison0.
    - intros j v H. destruct (P _ _ H) as [(-> & ->)|E]; [|apply iv_order0; exact E].
      rewrite HO. apply iv_order0. exact Hw.
  Qed.

  Lemma from_parts_app s tr q a : from_parts s tr -> (a = unlocked pt q \/ exists l, ts_poisoned s l = true) -> from_parts s (tr ++ [(q, a)]).
  Proof. intros H E q' a' HI. apply in_app_or in HI. destruct HI as [HI|[[= <- <-]|[]]]; [apply H; exact HI|exact E]. Qed.

  Lemma step_inv programs s s' i : inv_ programs s -> tstep pt i s s' -> inv_ programs s'.
  Proof.
    intros I H. inversion H as [ct lk po ws c rest dn Hw|ct lk po ws todo dn tr q Hw HL|ct lk po ws todo dn tr q l Hw HL HF HP
      |ct lk po ws todo dn tr q l Hw HL HF HP|ct lk po ws todo dn tr q change next Hw|ct lk po ws todo dn tr q a l Hw HL
      |ct lk po ws c rest dn tr r Hw HD]; subst s s'.
    - eapply quiet_inv; [exact I|exact Hw| | | | |]; cbn [wk_position wk_done wk_todo]; try discriminate; auto.
      intros tr [= <-]. intros q a [].
    - eapply quiet_inv; [exact I|exact Hw| | | | |]; cbn [wk_position wk_done wk_todo]; try discriminate; auto.
      intros tr' [= <-]. apply from_parts_app; [exact (iv_calling _ _ I _ _ _ _ Hw)|left; reflexivity].
    - eapply quiet_inv; [exact I|exact Hw| | | | |]; cbn [wk_position wk_done wk_todo]; try discriminate; auto.
      intros tr' [= <-]. apply from_parts_app; [exact (iv_calling _ _ I _ _ _ _ Hw)|right; exists l; exact HP].
    - (* Ask *)
      destruct I. cbn [ts_contents ts_locks ts_poisoned ts_workers] in *.
      assert (Li : i < length ws) by (eapply nth_lt; exact Hw).
      split; cbn [ts_contents ts_locks ts_poisoned ts_workers].
      + intros m Hm. unfold set_lock in Hm. destruct (lock_eq_dec m l); [discriminate|]. apply iv_free0, Hm.
      + intros m j. unfold set_lock, holds. cbn [ts_workers]. destruct (lock_eq_dec m l) as [->|Nm].
        * split.
          -- intros [= <-]. exists tr, q, (work_of pt q), todo, dn. rewrite nth_put by exact Li.
             destruct (Nat.eq_dec i i); [auto|congruence].
          -- intros (tr' & q' & w' & todo' & dn' & H' & HL'). rewrite nth_put in H' by exact Li.
             destruct (Nat.eq_dec j i) as [->|Nj]; [reflexivity|]. exfalso.
             assert (X : lk l = Some j) by (apply iv_held0; exists tr', q', w', todo', dn'; auto). congruence.
        * rewrite iv_held0. unfold holds. cbn [ts_workers].
          split; intros (tr' & q' & w' & todo' & dn' & H' & HL'); exists tr', q', w', todo', dn'; (split; [|exact HL']).
          -- rewrite nth_put by exact Li. destruct (Nat.eq_dec j i) as [->|]; [|exact H']. congruence.
          -- rewrite nth_put in H' by exact Li. destruct (Nat.eq_dec j i) as [->|]; [|exact H']. congruence.
      + intros j tr' q' w' todo' dn' m H' HL'. rewrite nth_put in H' by exact Li. destruct (Nat.eq_dec j i) as [->|Nj].
        * injection H' as <- <- <- <- <-. rewrite HL in HL'. injection HL' as <-.
          apply good_work; [exact HL|]. apply iv_free0, HF.
        * eapply iv_good0; eassumption.
      + intros j tr' q' w' todo' dn' H'. rewrite nth_put in H' by exact Li. destruct (Nat.eq_dec j i) as [->|Nj].
        * injection H' as <- <- <- <- <-. congruence.
        * eapply iv_locked0; eassumption.
      + intros j tr' todo' dn' H'. rewrite nth_put in H' by exact Li. destruct (Nat.eq_dec j i) as [->|Nj]; [discriminate|].
        exact (iv_calling0 _ _ _ _ H').
      + intros j tr' q' w' todo' dn' H'. rewrite nth_put in H' by exact Li. destruct (Nat.eq_dec j i) as [->|Nj].
        * injection H' as <- <- <- <- <-. exact (iv_calling0 _ _ _ _ Hw).
        * exact (iv_holding0 _ _ _ _ _ _ H').
      + intros j v c r H' HI. rewrite nth_put in H' by exact Li. destruct (Nat.eq_dec j i) as [->|Nj].
        * injection H' as <-. eapply iv_done0; [exact Hw|exact HI].
        * eapply iv_done0; eassumption.
      + exact iv_poison0.
      + intros j v H'. rewrite nth_put in H' by exact Li. destruct (Nat.eq_dec j i) as [->|Nj].
        * injection H' as <-. exact (iv_order0 _ _ Hw).
        * apply iv_order0, H'.
    - (* Work *)
      destruct I. cbn [ts_contents ts_locks ts_poisoned ts_workers] in *.
      assert (Li : i < length ws) by (eapply nth_lt; exact Hw).
      destruct (lock_of q) as [l|] eqn:HL; [|exfalso; eapply iv_locked0; eassumption].
      pose proof (iv_good0 _ _ _ _ _ _ _ Hw HL) as G. cbn [good] in G. destruct (G ct (same_refl _ _)) as (GO & GN).
      assert (Hlk : lk l = Some i) by (apply iv_held0; exists tr, q, (Then change next), todo, dn; auto).
      split; cbn [ts_contents ts_locks ts_poisoned ts_workers].
      + intros m Hm. eapply okc_same; [apply GO; congruence|]. apply iv_free0, Hm.
      + intros m j. rewrite iv_held0. unfold holds. cbn [ts_workers].
        split; intros (tr' & q' & w' & todo' & dn' & H' & HL').
        * destruct (Nat.eq_dec j i) as [->|Nj].
          -- rewrite Hw in H'. injection H' as <- <- <- <- <-. exists tr, q, (next ct), todo, dn.
             split; [|exact HL']. rewrite nth_put by exact Li. destruct (Nat.eq_dec i i); [reflexivity|congruence].
          -- exists tr', q', w', todo', dn'. split; [|exact HL']. rewrite nth_put by exact Li.
             destruct (Nat.eq_dec j i); [congruence|exact H'].
        * rewrite nth_put in H' by exact Li. destruct (Nat.eq_dec j i) as [->|Nj].
          -- injection H' as <- <- <- <- <-. exists tr, q, (Then change next), todo, dn. auto.
          -- exists tr', q', w', todo', dn'. auto.
      + intros j tr' q' w' todo' dn' m H' HL'. rewrite nth_put in H' by exact Li. destruct (Nat.eq_dec j i) as [->|Nj].
        * injection H' as <- <- <- <- <-. rewrite HL in HL'. injection HL' as <-. exact GN.
        * eapply good_same; [|eapply iv_good0; eassumption]. apply GO. intros ->.
          assert (X : lk l = Some j) by (apply iv_held0; exists tr', q', w', todo', dn'; auto). congruence.
      + intros j tr' q' w' todo' dn' H'. rewrite nth_put in H' by exact Li. destruct (Nat.eq_dec j i) as [->|Nj].
        * injection H' as <- <- <- <- <-. congruence.
        * eapply iv_locked0; eassumption.
      + intros j tr' todo' dn' H'. rewrite nth_put in H' by exact Li. destruct (Nat.eq_dec j i) as [->|Nj]; [discriminate|].
        exact (iv_calling0 _ _ _ _ H').
      + intros j tr' q' w' todo' dn' H'. rewrite nth_put in H' by exact Li. destruct (Nat.eq_dec j i) as [->|Nj].
        * injection H' as <- <- <- <- <-. exact (iv_holding0 _ _ _ _ _ _ Hw).
        * exact (iv_holding0 _ _ _ _ _ _ H').
      + intros j v c r H' HI. rewrite nth_put in H' by exact Li. destruct (Nat.eq_dec j i) as [->|Nj].
        * injection H' as <-. eapply iv_done0; [exact Hw|exact HI].
        * eapply iv_done0; eassumption.
      + exact iv_poison0.
      + intros j v H'. rewrite nth_put in H' by exact Li. destruct (Nat.eq_dec j i) as [->|Nj].
        * injection H' as <-. exact (iv_order0 _ _ Hw).
        * apply iv_order0, H'.
    - (* Leave *)
      destruct I. cbn [ts_contents ts_locks ts_poisoned ts_workers] in *.
      assert (Li : i < length ws) by (eapply nth_lt; exact Hw).
      destruct (iv_good0 _ _ _ _ _ _ _ Hw HL) as (Ea & Oa).
      assert (Hlk : lk l = Some i) by (apply iv_held0; exists tr, q, (Done a), todo, dn; auto).
      assert (PO : forall m, po m = true -> (if is_panic a then set_poison po l true else po) m = true).
      { intros m Hm. destruct (is_panic a); [|exact Hm]. unfold set_poison. destruct (lock_eq_dec m l); [reflexivity|exact Hm]. }
      assert (FP : forall tr0, from_parts (mkThreads ct lk po ws) tr0 ->
        from_parts (mkThreads ct (set_lock lk l None) (if is_panic a then set_poison po l true else po)
                              (put ws i (mkWorker (Calling (tr ++ [(q, a)])) todo dn))) tr0).
      { intros tr0 F q' a' HI. destruct (F _ _ HI) as [E|(m & E)]; [left; exact E|right; exists m; apply PO, E]. }
      split; cbn [ts_contents ts_locks ts_poisoned ts_workers].
      + intros m Hm. unfold set_lock in Hm. destruct (lock_eq_dec m l) as [->|]; [exact Oa|]. apply iv_free0, Hm.
      + intros m j. unfold set_lock, holds. cbn [ts_workers]. destruct (lock_eq_dec m l) as [->|Nm].
        * split; [discriminate|]. intros (tr' & q' & w' & todo' & dn' & H' & HL'). rewrite nth_put in H' by exact Li.
          destruct (Nat.eq_dec j i) as [->|Nj]; [discriminate|]. exfalso.
          assert (X : lk l = Some j) by (apply iv_held0; exists tr', q', w', todo', dn'; auto). congruence.
        * rewrite iv_held0. unfold holds. cbn [ts_workers].
          split; intros (tr' & q' & w' & todo' & dn' & H' & HL'); exists tr', q', w', todo', dn'; (split; [|exact HL']).
          -- rewrite nth_put by exact Li. destruct (Nat.eq_dec j i) as [->|]; [|exact H'].
             rewrite Hw in H'. injection H' as <- <- <- <- <-. congruence.
          -- rewrite nth_put in H' by exact Li. destruct (Nat.eq_dec j i) as [->|]; [discriminate|exact H'].
      + intros j tr' q' w' todo' dn' m H' HL'. rewrite nth_put in H' by exact Li. destruct (Nat.eq_dec j i) as [->|Nj]; [discriminate|].
        eapply iv_good0; eassumption.
      + intros j tr' q' w' todo' dn' H'. rewrite nth_put in H' by exact Li. destruct (Nat.eq_dec j i) as [->|Nj]; [discriminate|].
        eapply iv_locked0; eassumption.
      + intros j tr' todo' dn' H'. rewrite nth_put in H' by exact Li. destruct (Nat.eq_dec j i) as [->|Nj].
        * injection H' as <- <- <-. apply from_parts_app; [apply FP; exact (iv_holding0 _ _ _ _ _ _ Hw)|left; exact Ea].
        * apply FP. exact (iv_calling0 _ _ _ _ H').
      + intros j tr' q' w' todo' dn' H'. rewrite nth_put in H' by exact Li. destruct (Nat.eq_dec j i) as [->|Nj]; [discriminate|].
        apply FP. exact (iv_holding0 _ _ _ _ _ _ H').
      + intros j v c r H' HI.
        assert (X : r = c (plain_parts pt) \/ exists m, po m = true).
        { rewrite nth_put in H' by exact Li. destruct (Nat.eq_dec j i) as [->|Nj].
          - injection H' as <-. eapply iv_done0; [exact Hw|exact HI].
          - eapply iv_done0; eassumption. }
        destruct X as [X|(m & X)]; [left; exact X|right; exists m; apply PO, X].
      + intros m Hm. destruct (is_panic a) eqn:Pa; [|apply iv_poison0, Hm]. unfold set_poison in Hm.
        destruct (lock_eq_dec m l) as [->|]; [|apply iv_poison0, Hm].
        exists q. split; [exact HL|]. eapply poison_lemma; eassumption.
      + intros j v H'. rewrite nth_put in H' by exact Li. destruct (Nat.eq_dec j i) as [->|Nj].
        * injection H' as <-. exact (iv_order0 _ _ Hw).
        * apply iv_order0, H'.
    - (* Return *)
      eapply quiet_inv; [exact I|exact Hw| | | | |]; cbn [wk_position wk_done wk_todo]; try discriminate.
      + intros c' r' HI. apply in_app_or in HI. destruct HI as [HI|[[= <- <-]|[]]]; [left; exact HI|right].
        destruct (from_parts_all _ _ (iv_calling _ _ I _ _ _ _ Hw)) as [A|A]; [left|right; exact A].
        eapply determined_plain; eassumption.
      + rewrite map_app, <- app_assoc. reflexivity.
  Qed.

  Lemma reach_inv programs s : reach pt programs s -> inv_ programs s.
  Proof. induction 1 as [|s s' i _ IH H]; [apply start_inv|eapply step_inv; eassumption]. Qed.

  (** ** What follows *)
  Lemma thread_answers (programs : list (list (method (R := R)))) s i w c (r : R) : reach pt programs s -> (forall l, ts_poisoned s l = false) ->
    nth_error (ts_workers s) i = Some w -> In (c, r) (wk_done w) -> r = c (plain_parts pt).
  Proof.
    intros H P Hw HI. destruct (iv_done _ _ (reach_inv _ _ H) _ _ _ _ Hw HI) as [E|(l & E)]; [exact E|].
    rewrite P in E. discriminate.
  Qed.
  Lemma thread_order (programs : list (list (method (R := R)))) s i w : reach pt programs s -> nth_error (ts_workers s) i = Some w ->
    nth_error programs i = Some (map fst (wk_done w) ++ wk_todo w).
  Proof. intros H. apply (iv_order _ _ (reach_inv _ _ H)). Qed.
  Lemma thread_poisoned (programs : list (list (method (R := R)))) s l : reach pt programs s -> ts_poisoned s l = true ->
    exists q, lock_of q = Some l /\ panics pt q.
  Proof. intros H. apply (iv_poison _ _ (reach_inv _ _ H)). Qed.
  Lemma thread_alone (programs : list (list (method (R := R)))) s i j l : reach pt programs s ->
    holds s i l -> holds s j l -> i = j.
  Proof.
    intros H Hi Hj. apply (iv_held _ _ (reach_inv _ _ H)) in Hi. apply (iv_held _ _ (reach_inv _ _ H)) in Hj. congruence.
  Qed.

  Fixpoint short (n : nat) (w : work) : Prop :=
    match w with
    | Done _ => True
    | Then _ nx => match n with 0 => False | S m => forall c, short m (nx c) end
    end.
  Lemma short_work q : short 3 (work_of pt q).
  Proof.
    destruct q as [s k b n|s k n|t fs]; cbn [work_of cache_work tag_work short]; intros c.
    - destruct (fst (lru_get _ _)); [exact I|]. intros _. destruct (pt_builtin pt _ k n); auto.
    - destruct (fst (lru_get _ _)); [exact I|]. intros _. destruct (pt_custom pt _ k n); auto.
    - intros _. exact I.
  Qed.
  Lemma short_S n w : short n w -> short (S n) w.
  Proof.
    revert n. induction w as [a|ch nx IH]; intros n H; [exact I|]. destruct n as [|n]; [destruct H|].
    cbn [short] in *. intros c. apply IH, H.
  Qed.
  Lemma reach_short (programs : list (list (method (R := R)))) s : reach pt programs s -> forall i tr q w todo dn,
    nth_error (ts_workers s) i = Some (mkWorker (Holding tr q w) todo dn) -> short 3 w.
  Proof.
    induction 1 as [|s s' i Hr IH H].
    - intros i tr q w todo dn H. unfold tstart in H. cbn [ts_workers] in H. rewrite nth_error_map in H.
      destruct (nth_error programs i); discriminate.
    - intros j tr' q' w' todo' dn' Hj. destruct H;
        (cbn [ts_workers] in Hj; rewrite nth_put in Hj by (eapply nth_lt; eassumption);
         destruct (Nat.eq_dec j i); [|eapply IH; exact Hj]); try discriminate; injection Hj as <- <- <- <- <-.
      + apply short_work.
      + apply IH in H. cbn [short] in H. specialize (H ct). do 1 apply short_S. exact H.
  Qed.

  Lemma finish_work w : forall n (s : Threads) i tr q todo dn l,
    nth_error (ts_workers s) i = Some (mkWorker (Holding tr q w) todo dn) -> lock_of q = Some l -> short n w ->
    exists m s' a, m <= S n /\ steps pt i m s s' /\ ts_locks s' = set_lock (ts_locks s) l None /\
      (good l q w (ts_contents s) -> a = unlocked pt q) /\
      ts_poisoned s' = (if is_panic a then set_poison (ts_poisoned s) l true else ts_poisoned s) /\
      exists ws, length ws = length (ts_workers s) /\ 
      ts_workers s' = put ws i (mkWorker (Calling (tr ++ [(q, a)])) todo dn).
  Proof.
    induction w as [a|ch nx IH]; intros n s i tr q todo dn l Hw HL HS.
    - destruct s as [ct lk po ws]. exists 1, (mkThreads ct (set_lock lk l None) (if is_panic a then set_poison po l true else po)
                         (put ws i (mkWorker (Calling (tr ++ [(q, a)])) todo dn))), a.
      split; [lia|]. split; [|split; [reflexivity|split; [intros (E & _); exact E|split; [reflexivity|exists ws; split; reflexivity]]]].
      eapply steps_more; [apply Leave; eassumption|apply steps_none].
    - destruct n as [|n]; [destruct HS|]. destruct s as [ct lk po ws]. cbn [ts_workers] in Hw.
      assert (Li : i < length ws) by (eapply nth_lt; exact Hw).
      destruct (IH ct n (mkThreads (ch ct) lk po (put ws i (mkWorker (Holding tr q (nx ct)) todo dn))) i tr q todo dn l)
        as (m & s' & a & Hm & St & Lk & Ga & Po & ws' & Lw & Wk).
      + cbn [ts_workers]. rewrite nth_put by exact Li. destruct (Nat.eq_dec i i); [reflexivity|congruence].
      + exact HL.
      + apply HS.
      + exists (S m), s', a. split; [lia|]. split; [eapply steps_more; [apply Work; exact Hw|exact St]|].
        split; [exact Lk|]. split; [|split; [exact Po|]].
        * intros G. apply Ga. cbn [ts_contents]. cbn [good ts_contents] in G.
          apply (G ct (same_refl _ _)).
        * exists ws'. split; [|exact Wk]. cbn [ts_workers] in *. rewrite Lw. unfold put.
          rewrite app_length, firstn_length. cbn [length]. rewrite skipn_length. lia.
  Qed.

  Lemma holder_leaves (programs : list (list (method (R := R)))) s i l : reach pt programs s -> holds s i l ->
    exists n s', n <= 4 /\ steps pt i n s s' /\ ts_locks s' l = None /\ in_call s' i.
  Proof.
    intros H (tr & q & w & todo & dn & Hw & HL).
    destruct (finish_work w 3 s i tr q todo dn l Hw HL (reach_short _ _ H _ _ _ _ _ _ Hw))
      as (m & s' & a & Hm & St & Lk & _ & _ & ws & Lw & Wk).
    exists m, s'. split; [exact Hm|]. split; [exact St|]. rewrite Lk. split.
    - unfold set_lock. destruct (lock_eq_dec l l); [reflexivity|congruence].
    - exists (tr ++ [(q, a)]), todo, dn. rewrite Wk, nth_put by (rewrite Lw; eapply nth_lt; exact Hw).
      destruct (Nat.eq_dec i i); [reflexivity|congruence].
  Qed.

  Lemma thread_no_deadlock (programs : list (list (method (R := R)))) s i q : reach pt programs s -> in_call s i ->
    (exists s', tstep pt i s s' /\
       (lock_of q = None \/ exists l, lock_of q = Some l /\ (holds s' i l \/ ts_poisoned s l = true))) \/
    (exists l j s', lock_of q = Some l /\ holds s j l /\ j <> i /\ tstep pt j s s').
  Proof.
    intros H (tr & todo & dn & Hw). destruct (lock_of q) as [l|] eqn:HL.
    - destruct (ts_locks s l) as [j|] eqn:Hl.
      + right. apply (iv_held _ _ (reach_inv _ _ H)) in Hl.
        assert (Nj : j <> i).
        { intros ->. destruct Hl as (tr' & q' & w' & t' & d' & H' & _). congruence. }
        destruct (holder_leaves _ _ _ _ H Hl) as (n & s' & _ & St & _ & Hc).
        inversion St as [s0 E1 E2|n0 s0 s1 s2 T _ E1 E2].
        * subst. exfalso. destruct Hl as (tr' & q' & w' & t' & d' & H' & _). destruct Hc as (tr2 & t2 & d2 & H2). congruence.
        * exists l, j, s1. auto.
      + left. destruct s as [ct lk po ws]. cbn [ts_workers ts_locks] in *.
        destruct (po l) eqn:HP.
        * eexists. split; [eapply AskPoisoned; eassumption|]. right. exists l. auto.
        * eexists. split; [eapply Ask; eassumption|]. right. exists l. split; [reflexivity|]. left.
          exists tr, q, (work_of pt q), todo, dn. cbn [ts_workers]. rewrite nth_put by (eapply nth_lt; exact Hw).
          destruct (Nat.eq_dec i i); [auto|congruence].
    - left. destruct s as [ct lk po ws]. eexists. split; [eapply AskUnlocked; eassumption|]. left. reflexivity.
  Qed.

  Lemma steps_app i n m (s s' s'' : Threads) : steps pt i n s s' -> steps pt i m s' s'' -> steps pt i (n + m) s s''.
  Proof. induction 1; intros H'; [exact H'|]. cbn [Nat.add]. eapply steps_more; [eassumption|]. apply IHsteps, H'. Qed.
  Lemma steps_reach programs i n (s s' : Threads) : steps pt i n s s' -> reach pt programs s -> reach pt programs s'.
  Proof. induction 1; intros Hr; [exact Hr|]. apply IHsteps. eapply reach_step; eassumption. Qed.

  Lemma no_poison (programs : list (list (method (R := R)))) s : (forall q, ~ panics pt q) -> reach pt programs s ->
    forall l, ts_poisoned s l = false.
  Proof.
    intros N H l. destruct (ts_poisoned s l) eqn:E; [|reflexivity].
    destruct (thread_poisoned _ _ _ H E) as (q & _ & P). destruct (N _ P).
  Qed.

  Lemma run_call programs i c rest dn qs : (forall q, In q qs -> ~ panics pt q) -> forall s tr r,
    reach pt programs s -> (forall l, ts_poisoned s l = false) -> (forall l, ts_locks s l = None) ->
    nth_error (ts_workers s) i = Some (mkWorker (Calling tr) (c :: rest) dn) ->
    (forall o, consistent o tr -> (forall q, In q qs -> ask o q = unlocked pt q) -> c o = r) ->
    exists n s', steps pt i n s s' /\ (forall l, ts_locks s' l = None) /\ (forall l, ts_poisoned s' l = false) /\
      nth_error (ts_workers s') i = Some (mkWorker (R := R) Between rest (dn ++ [(c, r)])).
  Proof.
    induction qs as [|q qs IH]; intros NP s tr r Hr Hp Hl Hw Hc.
    - destruct s as [ct lk po ws].
      exists 1, (mkThreads ct lk po (put ws i (mkWorker Between rest (dn ++ [(c, r)])))). split.
      + eapply steps_more; [eapply Return_; [exact Hw|]|apply steps_none]. intros o Co. apply Hc; [exact Co|intros q []].
      + split; [exact Hl|]. split; [exact Hp|]. cbn [ts_workers] in *. rewrite nth_put by (eapply nth_lt; exact Hw). destruct (Nat.eq_dec i i); [reflexivity|congruence].
    - assert (exists n s', steps pt i n s s' /\ (forall l, ts_locks s' l = None) /\ (forall l, ts_poisoned s' l = false) /\
                nth_error (ts_workers s') i = Some (mkWorker (Calling (tr ++ [(q, unlocked pt q)])) (c :: rest) dn)) as (n & s1 & St & Hl1 & Hp1 & Hw1).
      { destruct (lock_of q) as [l|] eqn:HL.
        - destruct s as [ct lk po ws]. cbn [ts_workers ts_locks ts_poisoned] in *.
          assert (Li : i < length ws) by (eapply nth_lt; exact Hw).
          assert (T : tstep pt i (mkThreads ct lk po ws)
                        (mkThreads ct (set_lock lk l (Some i)) po (put ws i (mkWorker (Holding tr q (work_of pt q)) (c :: rest) dn)))).
          { apply Ask; auto. }
          destruct (finish_work (work_of pt q) 3
                      (mkThreads ct (set_lock lk l (Some i)) po (put ws i (mkWorker (Holding tr q (work_of pt q)) (c :: rest) dn)))
                      i tr q (c :: rest) dn l) as (m & s' & a & _ & St & Lk & Ga & Po & ws' & Lw & Wk).
          + cbn [ts_workers]. rewrite nth_put by exact Li. destruct (Nat.eq_dec i i); [reflexivity|congruence].
          + exact HL.
          + apply short_work.
          + exists (S m), s'. split; [eapply steps_more; eassumption|]. split.
            * intros l'. rewrite Lk. cbn [ts_locks]. unfold set_lock. destruct (lock_eq_dec l' l); [reflexivity|apply Hl].
            * cbn [ts_contents ts_poisoned] in Ga, Po.
              assert (Ea : a = unlocked pt q) by (apply Ga, good_work; [exact HL|]; apply (iv_free _ _ (reach_inv _ _ Hr)), Hl).
              split; [rewrite Po; destruct (is_panic a) eqn:Pa; [|exact Hp]; exfalso; apply (NP q (or_introl eq_refl)), (poison_lemma q a Ea Pa)|].
              rewrite <- Ea, Wk, nth_put; [destruct (Nat.eq_dec i i); [reflexivity|congruence]|].
              rewrite Lw. cbn [ts_workers]. unfold put. rewrite app_length, firstn_length. cbn [length]. rewrite skipn_length. lia.
        - destruct s as [ct lk po ws]. cbn [ts_workers ts_locks] in *.
          exists 1, (mkThreads ct lk po (put ws i (mkWorker (Calling (tr ++ [(q, unlocked pt q)])) (c :: rest) dn))).
          split; [eapply steps_more; [eapply AskUnlocked; eassumption|apply steps_none]|]. split; [exact Hl|]. split; [exact Hp|].
          cbn [ts_workers]. rewrite nth_put by (eapply nth_lt; exact Hw). destruct (Nat.eq_dec i i); [reflexivity|congruence]. }
      destruct (IH (fun q' H' => NP q' (or_intror H')) s1 (tr ++ [(q, unlocked pt q)]) r) as (n2 & s2 & St2 & Hl2 & Hp2 & Hw2).
      + eapply steps_reach; eassumption.
      + exact Hp1.
      + exact Hl1.
      + exact Hw1.
      + intros o Co Ho. apply Hc.
        * intros q' a' HI. apply Co. apply in_or_app. left. exact HI.
        * intros q' [<-|HI]; [|apply Ho, HI]. apply Co. apply in_or_app. right. left. reflexivity.
      + exists (n + n2), s2. split; [eapply steps_app; eassumption|auto].
  Qed.

  Lemma steps_others i n (s s' : Threads) : steps pt i n s s' -> forall j, j <> i ->
    nth_error (ts_workers s') j = nth_error (ts_workers s) j.
  Proof.
    induction 1 as [|n s s1 s2 T _ IH]; intros j Nj; [reflexivity|]. rewrite IH by exact Nj.
    destruct T; cbn [ts_workers]; (rewrite nth_put by (eapply nth_lt; eassumption);
      destruct (Nat.eq_dec j i); [contradiction|reflexivity]).
  Qed.

  Lemma thread_completes programs s i c qs rest dn : (forall q, In q qs -> ~ panics pt q) ->
    reach pt programs s -> (forall l, ts_poisoned s l = false) -> (forall j l, ~ holds s j l) -> settled_by pt qs c ->
    nth_error (ts_workers s) i = Some (mkWorker (R := R) Between (c :: rest) dn) ->
    exists n s', steps pt i n s s' /\
      nth_error (ts_workers s') i = Some (mkWorker Between rest (dn ++ [(c, c (plain_parts pt))])) /\
      (forall j, j <> i -> nth_error (ts_workers s') j = nth_error (ts_workers s) j) /\
      (forall l, ts_poisoned s' l = false) /\ (forall j l, ~ holds s' j l).
  Proof.
    intros NP Hr Hp Hh HS Hw.
    assert (Hl : forall l, ts_locks s l = None).
    { intros l. destruct (ts_locks s l) as [j|] eqn:E; [|reflexivity]. exfalso.
      apply (iv_held _ _ (reach_inv _ _ Hr)) in E. eapply Hh, E. }
    destruct s as [ct lk po ws]. cbn [ts_workers ts_locks] in *.
    assert (T : tstep pt i (mkThreads ct lk po ws) (mkThreads ct lk po (put ws i (mkWorker (Calling []) (c :: rest) dn)))).
    { apply Begin. exact Hw. }
    destruct (run_call programs i c rest dn qs NP _ [] (c (plain_parts pt)) (reach_step _ _ _ _ _ Hr T)) as (n & s' & St & Hl' & Hp' & Hw').
    - exact Hp.
    - exact Hl.
    - cbn [ts_workers]. rewrite nth_put by (eapply nth_lt; exact Hw). destruct (Nat.eq_dec i i); [reflexivity|congruence].
    - intros o _ Ho. apply HS. intros q Hq. rewrite ask_plain. apply Ho, Hq.
    - exists (S n), s'. assert (St' : steps pt i (S n) (mkThreads ct lk po ws) s') by (eapply steps_more; eassumption).
      split; [exact St'|]. split; [exact Hw'|]. split; [apply (steps_others _ _ _ _ St')|]. split; [exact Hp'|].
      intros j l Hj. apply (iv_held _ _ (reach_inv _ _ (steps_reach _ _ _ _ _ St' Hr))) in Hj. rewrite Hl' in Hj. discriminate.
  Qed.
End Threads.

(** ** Poisoned locks *)
Lemma lock_not_poisoned pt {R} (programs : list (list (method (R := R)))) s : reach pt programs s ->
  forall l i, ts_locks s l = Some i -> ts_poisoned s l = false.
Proof.
  induction 1 as [|s s' j Hr IH T]; [discriminate|]. intros l i.
  destruct T as [| | |ct lk po ws todo dn tr q m Hw HL HF HP| |ct lk po ws todo dn tr q a m Hw HL|];
    cbn [ts_locks ts_poisoned] in *; try apply IH.
  - unfold set_lock. destruct (lock_eq_dec l m) as [->|]; [intros _; exact HP|apply IH].
  - unfold set_lock. destruct (lock_eq_dec l m) as [->|N]; [discriminate|]. intros E.
    destruct (is_panic a); [|eapply IH; exact E]. unfold set_poison. destruct (lock_eq_dec l m); [contradiction|eapply IH; exact E].
Qed.
Lemma poison_for_ever pt {R} (programs : list (list (method (R := R)))) s l : reach pt programs s -> ts_poisoned s l = true ->
  (forall i, ~ holds s i l) /\ forall i s', tstep pt i s s' -> ts_poisoned s' l = true.
Proof.
  intros H P. split.
  - intros i Hi. apply (iv_held _ _ _ (reach_inv _ _ _ H)) in Hi. rewrite (lock_not_poisoned _ _ _ H _ _ Hi) in P. discriminate.
  - intros i s' T. destruct T; cbn [ts_poisoned] in *; try exact P.
    destruct (is_panic a); [|exact P]. unfold set_poison. destruct (lock_eq_dec l l0); [reflexivity|exact P].
Qed.

(** ** Engines *)
Section Engines.
  Context (x : Ext) (shape : str -> str) (ngrams : list str -> nat -> list str) (mx : Math) (L : Loader)
          (fo : path -> orders) (uo : path -> nat -> HashOrder) (f : fs) (p : path) (pt : Parts).

  Lemma plug_taggers_same : (forall file t, ld_tagger L f file = Ok t -> pt_tag pt file = tg_tag t) ->
    forall file, ld_tagger (plug_taggers (plain_parts pt) L f) f file = ld_tagger L f file.
  Proof.
    intros H file. cbn [plug_taggers ld_tagger plain_parts o_tag].
    destruct (ld_tagger L f file) as [t|e|] eqn:E; cbn [bind]; [|reflexivity|reflexivity].
    rewrite (H _ _ E). destruct t. reflexivity.
  Qed.

  Lemma crf_new_ext res m g h : (forall n, g n = h n) -> crf_new x shape (ld_lang L) g m res = crf_new x shape (ld_lang L) h m res.
  Proof. intros H. unfold crf_new. destruct (sm_crf_file m) as [n|]; [rewrite H|]; reflexivity. Qed.

  Lemma parsers_same m res : (forall file t, ld_tagger L f file = Ok t -> pt_tag pt file = tg_tag t) ->
    load_intent_parsers x shape ngrams mx (plug_taggers (plain_parts pt) L f) fo uo f p m res =
    load_intent_parsers x shape ngrams mx L fo uo f p m res.
  Proof.
    intros H. pose proof (plug_taggers_same H) as T. unfold load_intent_parsers. apply mapM_ext. intros n _. cbv zeta.
    apply bind_cong; [reflexivity|]. intros u _. destruct u; try reflexivity.
    cbn [build_intent_parser]. apply bind_cong; [|reflexivity]. unfold load_probabilistic.
    apply bind_cong; [reflexivity|]. intros pm _. apply bind_cong; [reflexivity|]. intros c _.
    apply bind_cong; [|reflexivity]. apply mapM_ext. intros md _. apply bind_cong; [|reflexivity].
    unfold build_slot_filler. apply bind_cong; [reflexivity|]. intros u' _. destruct u'; try reflexivity.
    apply bind_cong; [|reflexivity]. unfold load_crf. cbv zeta. apply bind_cong; [reflexivity|]. intros sm _.
    apply crf_new_ext. intros name. apply T.
  Qed.

  Lemma plug_same m res : parts_at x L fo f p pt -> load_model L fo f p = Ok m -> resources_of x L uo f p m = Ok res ->
    plug (plain_parts pt) res = res.
  Proof.
    intros PA M HR. destruct PA as [Plo Pb Pc _]. specialize (Pb m M). destruct (Pc m M) as (md & l & gaz & E1 & E2 & E3 & E4).
    unfold resources_of in HR. bind_inv HR. unfold load_shared_resources in HR. repeat bind_inv HR.
    inv HR. unfold load_builtin in *. rewrite Pb in *. unfold load_custom in *. rewrite E1 in *. cbn [bind] in *.
    rewrite E2 in *. cbn [ok_or bind] in *. rewrite E3 in *. cbn [bind] in *.
    repeat match goal with H : Ok _ = Ok _ |- _ => injection H as <- end.
    unfold plug. cbn [rs_gazetteers rs_stemmer rs_clusterers rs_stop_words plain_parts o_builtin o_custom].
    rewrite E4, Plo. reflexivity.
  Qed.

  Lemma engine_plain : parts_at x L fo f p pt ->
    engine_asking x shape ngrams mx L fo uo f p (plain_parts pt) = from_path x shape ngrams mx L fo uo f p.
  Proof.
    intros PA. unfold engine_asking, from_path. apply bind_cong; [reflexivity|]. intros m M.
    apply bind_cong; [reflexivity|]. intros res HR. rewrite (plug_same m res PA M HR).
    rewrite parsers_same by (apply (pa_tagger _ _ _ _ _ _ PA)). reflexivity.
  Qed.

  Lemma engine_answers {A} en (programs : list (list (Engine -> outcome A))) s i w prog n k c r :
    parts_at x L fo f p pt -> from_path x shape ngrams mx L fo uo f p = Ok en ->
    reach pt (map (map (on_engine x shape ngrams mx L fo uo f p)) programs) s -> (forall l, ts_poisoned s l = false) ->
    nth_error (ts_workers s) i = Some w -> nth_error programs i = Some prog -> nth_error prog n = Some k ->
    nth_error (wk_done w) n = Some (c, r) -> r = k en.
  Proof.
    intros PA E Hr NP Hw Hp Hk Hd.
    pose proof (thread_order _ _ _ _ _ Hr Hw) as HO. rewrite nth_error_map, Hp in HO. cbn [option_map] in HO. injection HO as HO.
    assert (Ec : c = on_engine x shape ngrams mx L fo uo f p k).
    { assert (H1 : nth_error (map (on_engine x shape ngrams mx L fo uo f p) prog) n = Some (on_engine x shape ngrams mx L fo uo f p k)).
      { rewrite nth_error_map, Hk. reflexivity. }
      rewrite HO, nth_error_app1 in H1 by (rewrite map_length; eapply nth_lt; exact Hd).
      rewrite nth_error_map, Hd in H1. injection H1 as H1. exact H1. }
    rewrite (thread_answers pt _ _ _ _ c r Hr NP Hw (nth_error_In _ _ Hd)). subst c. unfold on_engine.
    rewrite (engine_plain PA), E. reflexivity.
  Qed.
End Engines.
