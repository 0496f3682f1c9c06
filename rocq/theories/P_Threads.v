(** Proofs about threads that share an entity parser. *)
From Coq Require Import String List NArith ZArith Bool Arith Lia.
From Verif Require Import Base M_Types M_Cache S_Base S_Det S_Cache P_Base P_Cache.
Import ListNotations.
Local Open Scope nat_scope.

Lemma nth_set_nth {A} i (a : A) l j :
  nth_error (set_nth i a l) j = if j =? i then (match nth_error l i with Some _ => Some a | None => None end) else nth_error l j.
Proof.
  revert i j. induction l as [|b l IH]; intros [|i] [|j]; cbn [set_nth nth_error Nat.eqb]; try reflexivity.
  - destruct (j =? i); reflexivity.
  - rewrite IH. destruct (j =? i); reflexivity.
Qed.
Lemma set_nth_length {A} i (a : A) l : length (set_nth i a l) = length l.
Proof. revert i. induction l as [|b l IH]; intros [|i]; cbn [set_nth length]; auto. Qed.

Section WithValues.
  Context {V : Type} (lower : str -> str) (raw : str -> option (list str) -> nat -> outcome V) (cap : nat).
  Notation extract := (extract lower raw cap).
  Notation calls := (calls lower raw cap).
  Notation step := (step lower raw cap).
  Notation run := (run lower raw cap).
  Notation key r := (key_of_request lower r).

  (** What the holder of the lock has done to the state [sh0] in which it took it. *)
  Definition midway (sh0 sh : Shared V) (r : Request) (pc : Pc) : Prop :=
    match pc with
    | Idle => False
    | LookUp => sh = sh0
    | Call => sh = sh0 /\ lru_get (key r) (sh_cache sh0) = (None, sh_cache sh0)
    | Insert v => sh = sh0 /\ lru_get (key r) (sh_cache sh0) = (None, sh_cache sh0) /\ producer raw r (key r) = Ok v
    | Return res => extract sh0 r = (res, sh) /\ res <> Panic
    end.

  Definition requests (h : list (nat * (Request * outcome V))) : list Request := map (fun e => fst (snd e)) h.
  Definition answers (h : list (nat * (Request * outcome V))) : list (outcome V) := map (fun e => snd (snd e)) h.

  Definition Inv (programs : list (list Request)) (h : list (nat * (Request * outcome V))) (s : System V) : Prop :=
    let sh0 := snd (calls fresh (requests h)) in
    fst (calls fresh (requests h)) = answers h /\
    (length (sy_threads s) = length programs /\ forall e, In e h -> fst e < length programs) /\
    (forall i t p, nth_error (sy_threads s) i = Some t -> nth_error programs i = Some p ->
       th_done t = of_thread i h /\ p = map fst (th_done t) ++ th_todo t) /\
    (forall i t, nth_error (sy_threads s) i = Some t -> sy_lock s <> Some i -> th_pc t = Idle) /\
    match sy_lock s with
    | None => sy_shared s = sh0
    | Some j => exists t r rest, nth_error (sy_threads s) j = Some t /\ th_dead t = false /\ th_todo t = r :: rest /\
        rq_cached r = true /\ sh_poisoned sh0 = false /\ midway sh0 (sy_shared s) r (th_pc t)
    end.

  Lemma of_thread_app {A} i (h h' : list (nat * A)) : of_thread i (h ++ h') = of_thread i h ++ of_thread i h'.
  Proof. unfold of_thread. rewrite filter_app, map_app. reflexivity. Qed.
  Lemma of_thread_one {A} i j (a : A) : of_thread i [(j, a)] = if j =? i then [a] else [].
  Proof. unfold of_thread. cbn [filter fst]. destruct (j =? i); reflexivity. Qed.

  Lemma calls_snoc h r a sh : fst (calls fresh (requests h)) = answers h ->
    extract (snd (calls fresh (requests h))) r = (a, sh) -> forall i,
    fst (calls fresh (requests (h ++ [(i, (r, a))]))) = answers (h ++ [(i, (r, a))]) /\
    snd (calls fresh (requests (h ++ [(i, (r, a))]))) = sh.
  Proof.
    intros H E i. unfold requests, answers in *. rewrite !map_app. cbn [map fst snd]. rewrite calls_app. cbn [fst snd S_Cache.calls].
    rewrite E. cbn [fst snd]. rewrite H. auto.
  Qed.

  (** A thread completes its call: the history grows by one. *)
  Lemma inv_finish programs h s i t r rest a sh' lock' shared' :
    Inv programs h s -> nth_error (sy_threads s) i = Some t -> th_todo t = r :: rest ->
    extract (snd (calls fresh (requests h))) r = (a, sh') ->
    (forall j, lock' = Some j -> j <> i) ->
    (forall j u, j <> i -> nth_error (sy_threads s) j = Some u -> lock' <> Some j -> th_pc u = Idle) ->
    match lock' with
    | None => shared' = sh'
    | Some j => exists u q qs, nth_error (sy_threads s) j = Some u /\ th_dead u = false /\ th_todo u = q :: qs /\
        rq_cached q = true /\ sh_poisoned sh' = false /\ midway sh' shared' q (th_pc u)
    end ->
    Inv programs (h ++ [(i, (r, a))]) (mkSys shared' lock' (set_nth i (finish r rest t a) (sy_threads s))).
  Proof.
    intros (I1 & I2 & I3 & I4 & I5) Hi Ht He Hl Hidle Hm.
    destruct (calls_snoc h r a sh' I1 He i) as [C1 C2].
    split; [exact C1|]. cbn [sy_threads sy_lock sy_shared]. split; [|split; [|split]].
    - rewrite set_nth_length. split; [apply I2|]. intros e Hin. apply in_app_or in Hin. destruct Hin as [Hin|[<-|[]]]; [apply I2, Hin|].
      cbn [fst]. rewrite <- (proj1 I2). apply nth_error_Some. congruence.
    - intros j u p Hj Hp. rewrite nth_set_nth, Hi in Hj. rewrite of_thread_app, of_thread_one.
      rewrite (Nat.eqb_sym i j). destruct (Nat.eqb_spec j i) as [->|Hne].
      + injection Hj as <-. destruct (I3 i t p Hi Hp) as [D1 D2]. cbn [th_done th_todo finish]. rewrite D1. split; [reflexivity|].
        rewrite D2 at 1. rewrite D1, Ht, map_app. cbn [map fst]. rewrite <- app_assoc. reflexivity.
      + rewrite app_nil_r. exact (I3 j u p Hj Hp).
    - intros j u Hj Hlk. rewrite nth_set_nth, Hi in Hj. destruct (Nat.eqb_spec j i) as [->|Hne]; [injection Hj as <-; reflexivity|].
      exact (Hidle j u Hne Hj Hlk).
    - rewrite C2. destruct lock' as [j|]; [|exact Hm]. destruct Hm as (u & q & qs & H1 & H2).
      exists u, q, qs. split; [|exact H2]. rewrite nth_set_nth, Hi.
      destruct (Nat.eqb_spec j i) as [->|_]; [exfalso; exact (Hl i eq_refl eq_refl)|exact H1].
  Qed.

  (** The holder of the lock moves inside its critical section. *)
  Lemma inv_move programs h s i t r rest pc' shared' :
    Inv programs h s -> nth_error (sy_threads s) i = Some t -> th_todo t = r :: rest -> th_dead t = false ->
    sy_lock s = Some i \/ sy_lock s = None -> rq_cached r = true ->
    sh_poisoned (snd (calls fresh (requests h))) = false ->
    midway (snd (calls fresh (requests h))) shared' r pc' ->
    Inv programs h (mkSys shared' (Some i) (set_nth i (mkTh pc' (r :: rest) (th_done t) false) (sy_threads s))).
  Proof.
    intros (I1 & I2 & I3 & I4 & I5) Hi Ht Hd Hl Hc Hp Hm.
    split; [exact I1|]. cbn [sy_threads sy_lock sy_shared]. split; [rewrite set_nth_length; exact I2|]. split; [|split].
    - intros j u p Hj Hpj. rewrite nth_set_nth, Hi in Hj. destruct (Nat.eqb_spec j i) as [->|Hne].
      + injection Hj as <-. cbn [th_done th_todo]. rewrite <- Ht. exact (I3 i t p Hi Hpj).
      + exact (I3 j u p Hj Hpj).
    - intros j u Hj Hlk. rewrite nth_set_nth, Hi in Hj. destruct (Nat.eqb_spec j i) as [->|Hne]; [congruence|].
      apply (I4 j u Hj). destruct Hl as [-> | ->]; congruence.
    - exists (mkTh pc' (r :: rest) (th_done t) false), r, rest. rewrite nth_set_nth, Hi, Nat.eqb_refl. cbn [th_dead th_todo th_pc]. auto 10.
  Qed.

  Lemma extract_call sh r : rq_cached r = true -> sh_poisoned sh = false ->
    lru_get (key r) (sh_cache sh) = (None, sh_cache sh) ->
    extract sh r = match producer raw r (key r) with
                   | Ok v => (Ok v, mkShared (lru_insert cap (key r) v (sh_cache sh)) false)
                   | Err e => (Err e, mkShared (sh_cache sh) false)
                   | Panic => (Panic, mkShared (sh_cache sh) true)
                   end.
  Proof.
    intros Hc Hp Hg. unfold M_Cache.extract. rewrite Hc, Hp. cbn [negb]. unfold try_cache. rewrite Hg.
    destruct (producer raw r (key r)); reflexivity.
  Qed.

  Lemma shared_eta (sh : Shared V) p : sh_poisoned sh = p -> mkShared (sh_cache sh) p = sh.
  Proof. destruct sh. cbn. intros ->. reflexivity. Qed.

  Lemma inv_step programs h s i s' : Inv programs h s -> step s i = Some s' ->
    exists h', Inv programs h' s'.
  Proof.
    intros HI Hs. unfold M_Cache.step in Hs. destruct (nth_error (sy_threads s) i) as [t|] eqn:Hi; [|discriminate].
    unfold step_thread in Hs. destruct (th_dead t) eqn:Hd; [discriminate|].
    destruct (th_todo t) as [|r rest] eqn:Ht; [discriminate|].
    pose proof HI as (I1 & I2 & I3 & I4 & I5). set (sh0 := snd (calls fresh (requests h))) in *.
    destruct (th_pc t) as [| | |v|res] eqn:Hpc.
    - destruct (rq_cached r) eqn:Hc; cbn [negb] in Hs.
      + destruct (sy_lock s) as [j|] eqn:Hl; [discriminate|]. rewrite I5 in Hs.
        destruct (sh_poisoned sh0) eqn:Hp; injection Hs as <-.
        * exists (h ++ [(i, (r, Panic))]). eapply inv_finish with (sh' := sh0); try eassumption.
          -- fold sh0. unfold M_Cache.extract. rewrite Hc, Hp. reflexivity.
          -- discriminate.
          -- intros j u _ Hj _. apply (I4 j u Hj). congruence.
          -- reflexivity.
        * exists h. eapply inv_move; try eassumption; [right; exact Hl|fold sh0; reflexivity].
      + injection Hs as <-. exists (h ++ [(i, (r, answer lower raw r))]).
        eapply inv_finish with (sh' := sh0); try eassumption.
        * fold sh0. unfold M_Cache.extract. rewrite Hc. reflexivity.
        * intros j Hj ->. rewrite Hj in I5. destruct I5 as (u & q & qs & U1 & _ & U3 & U4 & _). rewrite Hi in U1. injection U1 as <-.
          rewrite Ht in U3. injection U3 as <- <-. congruence.
        * intros j u _ Hj Hlk. exact (I4 j u Hj Hlk).
    - assert (Hl : sy_lock s = Some i).
      { destruct (sy_lock s) as [j|] eqn:Hl; [destruct (Nat.eq_dec j i) as [->|Hne]; [reflexivity|]|];
          exfalso; assert (th_pc t = Idle) by (apply (I4 i t Hi); congruence); congruence. }
      rewrite Hl in I5. destruct I5 as (u & q & qs & U1 & U2 & U3 & U4 & U5 & U6). rewrite Hi in U1. injection U1 as <-.
      rewrite Ht in U3. injection U3 as <- <-. rewrite Hpc in U6. cbn [midway] in U6.
      destruct (lru_get (key r) (sh_cache (sy_shared s))) as [[v|] c] eqn:Hg; injection Hs as <-; exists h; rewrite Hl;
        (eapply inv_move; try eassumption; [left; exact Hl|]).
      + fold sh0. split; [|discriminate]. unfold M_Cache.extract. rewrite U4, U5. cbn [negb]. unfold try_cache. rewrite U6 in Hg. rewrite Hg.
        rewrite U6, U5. reflexivity.
      + fold sh0. rewrite U6 in *. pose proof (get_miss _ _ _ Hg) as [-> _]. split; [|exact Hg]. apply shared_eta. reflexivity.
    - assert (Hl : sy_lock s = Some i).
      { destruct (sy_lock s) as [j|] eqn:Hl; [destruct (Nat.eq_dec j i) as [->|Hne]; [reflexivity|]|];
          exfalso; assert (th_pc t = Idle) by (apply (I4 i t Hi); congruence); congruence. }
      rewrite Hl in I5. destruct I5 as (u & q & qs & U1 & U2 & U3 & U4 & U5 & U6). rewrite Hi in U1. injection U1 as <-.
      rewrite Ht in U3. injection U3 as <- <-. rewrite Hpc in U6. cbn [midway] in U6. destruct U6 as [U6 U7].
      pose proof (extract_call sh0 r U4 U5 U7) as Hx.
      destruct (producer raw r (key r)) as [v|e|] eqn:Hpr; injection Hs as <-.
      + exists h. rewrite Hl. eapply inv_move; try eassumption; [left; exact Hl|]. fold sh0. cbn [midway]. auto.
      + exists h. rewrite Hl. eapply inv_move; try eassumption; [left; exact Hl|]. fold sh0. cbn [midway]. rewrite Hx, U6.
        rewrite (shared_eta sh0) by exact U5. split; [reflexivity|discriminate].
      + exists (h ++ [(i, (r, Panic))]). eapply inv_finish; try eassumption.
        * discriminate.
        * intros j u' Hne Hj _. apply (I4 j u' Hj). congruence.
        * cbn. rewrite U6. reflexivity.
    - assert (Hl : sy_lock s = Some i).
      { destruct (sy_lock s) as [j|] eqn:Hl; [destruct (Nat.eq_dec j i) as [->|Hne]; [reflexivity|]|];
          exfalso; assert (th_pc t = Idle) by (apply (I4 i t Hi); congruence); congruence. }
      rewrite Hl in I5. destruct I5 as (u & q & qs & U1 & U2 & U3 & U4 & U5 & U6). rewrite Hi in U1. injection U1 as <-.
      rewrite Ht in U3. injection U3 as <- <-. rewrite Hpc in U6. cbn [midway] in U6. destruct U6 as (U6 & U7 & U8).
      injection Hs as <-. exists h. rewrite Hl. eapply inv_move; try eassumption; [left; exact Hl|]. fold sh0. cbn [midway].
      rewrite (extract_call sh0 r U4 U5 U7), U8, U6, U5. split; [reflexivity|discriminate].
    - assert (Hl : sy_lock s = Some i).
      { destruct (sy_lock s) as [j|] eqn:Hl; [destruct (Nat.eq_dec j i) as [->|Hne]; [reflexivity|]|];
          exfalso; assert (th_pc t = Idle) by (apply (I4 i t Hi); congruence); congruence. }
      rewrite Hl in I5. destruct I5 as (u & q & qs & U1 & U2 & U3 & U4 & U5 & U6). rewrite Hi in U1. injection U1 as <-.
      rewrite Ht in U3. injection U3 as <- <-. rewrite Hpc in U6. cbn [midway] in U6. destruct U6 as (U6 & U7).
      injection Hs as <-. exists (h ++ [(i, (r, res))]). eapply inv_finish; try eassumption.
      + discriminate.
      + intros j u' Hne Hj _. apply (I4 j u' Hj). congruence.
      + reflexivity.
  Qed.

  Lemma inv_start programs : Inv programs [] (start programs).
  Proof.
    split; [reflexivity|]. cbn [start sy_threads sy_lock sy_shared]. split; [split; [apply map_length|intros e []]|]. split; [|split].
    - intros i t p Hi Hp. rewrite nth_error_map, Hp in Hi. injection Hi as <-. auto.
    - intros i t Hi _. rewrite nth_error_map in Hi. destruct (nth_error programs i); [|discriminate]. injection Hi as <-. reflexivity.
    - reflexivity.
  Qed.

  Lemma inv_run programs schedule : forall h s, Inv programs h s -> exists h', Inv programs h' (run s schedule).
  Proof.
    induction schedule as [|i sched IH]; intros h s HI; [exists h; exact HI|]. unfold M_Cache.run. cbn [fold_left].
    destruct (step s i) as [s'|] eqn:E.
    - destruct (inv_step _ _ _ _ _ HI E) as [h' HI']. exact (IH h' s' HI').
    - exact (IH h s HI).
  Qed.

  Lemma threads_linear programs schedule : exists h, explains lower raw cap programs h (run (start programs) schedule).
  Proof.
    destruct (inv_run programs schedule [] (start programs) (inv_start programs)) as (h & I1 & I2 & I3 & I4 & I5).
    exists h. split; [exact I1|]. split; [|split; [exact (proj1 I2)|exact I3]]. intros Hl. rewrite Hl in I5. exact I5.
  Qed.

  Lemma mutual_exclusion programs schedule i j :
    let s := run (start programs) schedule in
    in_critical_section s i -> in_critical_section s j -> i = j.
  Proof.
    intros s (t & Hi & Ht) (u & Hj & Hu).
    destruct (inv_run programs schedule [] (start programs) (inv_start programs)) as (h & I1 & I2 & I3 & I4 & I5). fold s in I3, I4, I5.
    destruct (sy_lock s) as [k|] eqn:Hl.
    - destruct (Nat.eq_dec k i) as [->|Hki]; [|exfalso; apply Ht, (I4 i t Hi); congruence].
      destruct (Nat.eq_dec i j) as [|Hij]; [assumption|exfalso; apply Hu, (I4 j u Hj); congruence].
    - exfalso. apply Ht, (I4 i t Hi). discriminate.
  Qed.

  Lemma step_work s i s' : step s i = Some s' -> work s' < work s.
  Proof.
    unfold M_Cache.step. destruct (nth_error (sy_threads s) i) as [t|] eqn:Hi; [|discriminate].
    destruct (step_thread lower raw cap i (sy_shared s) (sy_lock s) t) as [[[sh l] t']|] eqn:E; [|discriminate].
    intros [= <-]. unfold work; cbn [sy_threads].
    assert (Ht : steps_left t' < steps_left t).
    { unfold step_thread in E. unfold steps_left. destruct (th_dead t); [discriminate|].
      destruct (th_todo t) as [|r rest]; [discriminate|].
      assert (Hf : forall a, steps_left (finish r rest t a) <= 5 * length rest).
      { intros a. unfold steps_left, finish. cbn [th_dead th_todo th_pc]. destruct a; lia. }
      unfold steps_left in Hf. destruct (th_pc t).
      - destruct (rq_cached r); cbn [negb] in E.
        + destruct (sy_lock s); [discriminate|]. destruct (sh_poisoned _); injection E as <- <- <-.
          * specialize (Hf Panic). cbn [length] in *. lia.
          * cbn [th_dead th_todo th_pc length]. lia.
        + injection E as <- <- <-. match goal with |- context [finish r rest t ?a] => specialize (Hf a) end. cbn [length] in *. lia.
      - destruct (lru_get _ _) as [[v|] c]; injection E as <- <- <-; cbn [th_dead th_todo th_pc length]; lia.
      - destruct (producer _ _ _) as [v|e|]; injection E as <- <- <-; [cbn [th_dead th_todo th_pc length]; lia..|].
        specialize (Hf Panic). cbn [length] in *. lia.
      - injection E as <- <- <-. cbn [th_dead th_todo th_pc length]. lia.
      - injection E as <- <- <-. specialize (Hf res). cbn [length] in *. lia. }
    clear E. revert i Hi. induction (sy_threads s) as [|u l' IH]; intros [|i] Hi; try discriminate; cbn [set_nth fold_right nth_error] in *.
    - injection Hi as ->. lia.
    - specialize (IH i Hi). lia.
  Qed.

  Lemma no_deadlock programs schedule i :
    let s := run (start programs) schedule in
    unfinished s i -> exists j s', step s j = Some s'.
  Proof.
    intros s (t & Hi & Hd & Htodo).
    destruct (inv_run programs schedule [] (start programs) (inv_start programs)) as (h & I1 & I2 & I3 & I4 & I5). fold s in I3, I4, I5.
    assert (Hex : exists j u, nth_error (sy_threads s) j = Some u /\ step_thread lower raw cap j (sy_shared s) (sy_lock s) u <> None).
    { destruct (sy_lock s) as [k|] eqn:Hl.
      - destruct I5 as (u & q & qs & U1 & U2 & U3 & U4 & U5 & U6). exists k, u. split; [exact U1|].
        unfold step_thread. rewrite U2, U3. destruct (th_pc u); [contradiction| | |discriminate|discriminate].
        + destruct (lru_get _ _) as [[v|] c]; discriminate.
        + destruct (producer _ _ _); discriminate.
      - exists i, t. split; [exact Hi|]. assert (Hpc : th_pc t = Idle) by (apply (I4 i t Hi); discriminate).
        unfold step_thread. rewrite Hd, Hpc. destruct (th_todo t) as [|r rest]; [congruence|].
        destruct (rq_cached r); [|discriminate]. cbn [negb]. destruct (sh_poisoned _); discriminate. }
    destruct Hex as (j & u & Hj & Hs). exists j. unfold M_Cache.step. rewrite Hj.
    destruct (step_thread _ _ _ _ _ _ _) as [[[sh l] t']|]; [eauto|congruence].
  Qed.

  Definition dead_ok (s : System V) : Prop :=
    forall i t, nth_error (sy_threads s) i = Some t -> th_dead t = true -> exists r, In (r, Panic) (th_done t).
  Lemma dead_ok_step s i s' : dead_ok s -> step s i = Some s' -> dead_ok s'.
  Proof.
    intros HD Hs j u Hj Hu. unfold M_Cache.step in Hs. destruct (nth_error (sy_threads s) i) as [t|] eqn:Hi; [|discriminate].
    destruct (step_thread _ _ _ _ _ _ _) as [[[sh l] t']|] eqn:E; [|discriminate]. injection Hs as <-. cbn [sy_threads] in Hj.
    rewrite nth_set_nth, Hi in Hj. destruct (j =? i); [|exact (HD j u Hj Hu)]. injection Hj as <-.
    assert (Hf : forall r rest a, th_dead (finish r rest t a) = true -> exists r', In (r', Panic) (th_done (finish r rest t a))).
    { intros r rest a Ha. cbn [finish th_dead th_done] in *. destruct a; try discriminate. exists r. apply in_or_app. right; left; reflexivity. }
    unfold step_thread in E. destruct (th_dead t); [discriminate|].
    destruct (th_todo t) as [|r rest]; [discriminate|]. destruct (th_pc t).
    - destruct (rq_cached r); cbn [negb] in E.
      + destruct (sy_lock s); [discriminate|]. destruct (sh_poisoned _); injection E as <- <- <-; [apply Hf; exact Hu|discriminate].
      + injection E as <- <- <-. apply Hf; exact Hu.
    - destruct (lru_get _ _) as [[v|] c]; injection E as <- <- <-; discriminate.
    - destruct (producer _ _ _) as [v|e|]; injection E as <- <- <-; [discriminate|discriminate|apply Hf; exact Hu].
    - injection E as <- <- <-. discriminate.
    - injection E as <- <- <-. apply Hf; exact Hu.
  Qed.
  Lemma dead_panicked programs schedule i t :
    nth_error (sy_threads (run (start programs) schedule)) i = Some t -> th_dead t = true -> exists r, In (r, Panic) (th_done t).
  Proof.
    enough (H : forall s, dead_ok s -> dead_ok (run s schedule)).
    { apply (H (start programs)). intros j u Hj Hu. cbn [start sy_threads] in Hj. rewrite nth_error_map in Hj.
      destruct (nth_error programs j); [|discriminate]. injection Hj as <-. discriminate. }
    induction schedule as [|k sched IH]; intros s Hs; [exact Hs|]. unfold M_Cache.run. cbn [fold_left]. apply IH.
    destruct (step s k) as [s'|] eqn:E; [exact (dead_ok_step _ _ _ Hs E)|exact Hs].
  Qed.

  Lemma map_eq_In {A B} (f g : A -> B) l a : map f l = map g l -> In a l -> f a = g a.
  Proof. induction l as [|b l IH]; [intros _ []|]. cbn [map In]. intros [= H1 H2] [->|H]; auto. Qed.

  Lemma threads_answers programs schedule :
    (forall p r, In p programs -> In r p -> answer lower raw r <> Panic) ->
    let s := run (start programs) schedule in
    (forall i t, nth_error (sy_threads s) i = Some t ->
       th_dead t = false /\ forall r a, In (r, a) (th_done t) -> a = answer lower raw r) /\
    (forall k v, In (k, v) (sh_cache (sy_shared s)) -> raw (ck_input k) (ck_kinds k) (ck_alts k) = Ok v) /\
    length (sh_cache (sy_shared s)) <= cap /\ NoDup (map fst (sh_cache (sy_shared s))) /\ sh_poisoned (sy_shared s) = false.
  Proof.
    intros Hnp s.
    destruct (inv_run programs schedule [] (start programs) (inv_start programs)) as (h & I1 & [I2 I2'] & I3 & I4 & I5). fold s in I2, I3, I4, I5.
    assert (Hth : forall i, i < length programs -> exists t p, nth_error (sy_threads s) i = Some t /\ nth_error programs i = Some p).
    { intros i Hi. destruct (nth_error (sy_threads s) i) as [t|] eqn:E1; [|apply nth_error_None in E1; lia].
      destruct (nth_error programs i) as [p|] eqn:E2; [|apply nth_error_None in E2; lia]. eauto. }
    assert (Hmem : forall e, In e h -> exists p, In p programs /\ In (fst (snd e)) p).
    { intros e He. destruct (Hth _ (I2' e He)) as (t & p & T1 & T2). destruct (I3 _ _ _ T1 T2) as [D1 D2].
      exists p. split; [eapply nth_error_In; exact T2|]. rewrite D2. apply in_or_app. left. apply in_map. rewrite D1.
      unfold of_thread. apply in_map. apply filter_In. split; [exact He|]. apply Nat.eqb_refl. }
    assert (Hnc : no_cached_panic lower raw (requests h)).
    { intros r Hr _. unfold requests in Hr. apply in_map_iff in Hr. destruct Hr as (e & <- & He).
      destruct (Hmem e He) as (p & P1 & P2). exact (Hnp p _ P1 P2). }
    destruct (calls_answers lower raw cap (requests h) fresh (valid_nil raw) eq_refl Hnc) as (C1 & C2 & C3).
    destruct (cache_contents lower raw cap (requests h) Hnc) as (K1 & K2 & _ & K4).
    assert (Hans : forall e, In e h -> snd (snd e) = answer lower raw (fst (snd e))).
    { rewrite I1 in C1. unfold answers, requests in C1. rewrite map_map in C1. intros e He.
      exact (map_eq_In (fun e => snd (snd e)) (fun e => answer lower raw (fst (snd e))) h e C1 He). }
    split; [|].
    - intros i t Hi. destruct (Hth i) as (t' & p & T1 & T2); [rewrite <- I2; apply nth_error_Some; congruence|].
      rewrite Hi in T1. injection T1 as <-. destruct (I3 i t p Hi T2) as [D1 D2].
      assert (Hd : forall r a, In (r, a) (th_done t) -> a = answer lower raw r).
      { intros r a Hin. rewrite D1 in Hin. unfold of_thread in Hin. apply in_map_iff in Hin. destruct Hin as ([j ra] & Era & Hin).
        apply filter_In in Hin. cbn [snd] in Era. subst ra. exact (Hans _ (proj1 Hin)). }
      split; [|exact Hd].
      destruct (th_dead t) eqn:Edead; [|reflexivity]. exfalso.
      destruct (dead_panicked programs schedule i t Hi Edead) as [r Hr].
      pose proof (Hd r Panic Hr) as Hp. symmetry in Hp. revert Hp. apply (Hnp p); [eapply nth_error_In; exact T2|].
      rewrite D2. apply in_or_app. left. apply (in_map fst) in Hr. exact Hr.
    - set (sh0 := snd (calls fresh (requests h))) in *.
      assert (Hsh : sy_shared s = sh0 \/ exists r res, rq_cached r = true /\ (exists p, In p programs /\ In r p) /\ extract sh0 r = (res, sy_shared s)).
      { destruct (sy_lock s) as [j|]; [|left; exact I5]. destruct I5 as (u & q & qs & U1 & U2 & U3 & U4 & U5 & U6).
        destruct (th_pc u); cbn [midway] in U6; [contradiction|left; exact U6|left; apply U6|left; apply U6|].
        right. exists q, res. split; [exact U4|]. split; [|apply U6].
        destruct (Hth j) as (t' & p & T1 & T2); [rewrite <- I2; apply nth_error_Some; congruence|]. rewrite U1 in T1. injection T1 as <-.
        destruct (I3 j u p U1 T2) as [_ D2]. exists p. split; [eapply nth_error_In; exact T2|]. rewrite D2, U3. apply in_or_app. right; left; reflexivity. }
      destruct Hsh as [->|(r & res & R1 & (p & P1 & P2) & R3)]; [split; [exact K4|]; split; [exact K1|]; split; [exact K2|exact C3]|].
      assert (Hnc' : no_cached_panic lower raw (requests h ++ [r])).
      { intros r' Hr' Hc'. apply in_app_or in Hr'. destruct Hr' as [Hr'|[<-|[]]]; [exact (Hnc r' Hr' Hc')|exact (Hnp p r P1 P2)]. }
      assert (E : snd (calls fresh (requests h ++ [r])) = sy_shared s).
      { rewrite calls_app. cbn [snd S_Cache.calls]. fold sh0. rewrite R3. reflexivity. }
      destruct (calls_answers lower raw cap (requests h ++ [r]) fresh (valid_nil raw) eq_refl Hnc') as (_ & _ & Z3).
      destruct (cache_contents lower raw cap (requests h ++ [r]) Hnc') as (Z4 & Z5 & _ & Z6).
      rewrite E in *. split; [exact Z6|]. split; [exact Z4|]. split; [exact Z5|exact Z3].
  Qed.
End WithValues.
