(** Proofs about threads that share the clients of the C interface. *)
From Coq Require Import String List NArith Bool Arith Lia.
From Verif Require Import Base M_Types M_Engine M_Filler M_Load M_Ffi S_Ffi P_Base P_Ffi M_Share S_Share.
Import ListNotations.
Local Open Scope nat_scope.

Lemma set_nth_length {A} (l : list A) i a : i < length l -> length (set_nth l i a) = length l.
Proof. intros H. unfold set_nth. rewrite app_length, firstn_length. cbn [length]. rewrite skipn_length. lia. Qed.
Lemma set_nth_same {A} (l : list A) i a : i < length l -> nth_error (set_nth l i a) i = Some a.
Proof.
  intros H. unfold set_nth. rewrite nth_error_app2 by (rewrite firstn_length; lia).
  rewrite firstn_length. replace (i - Nat.min i (length l)) with 0 by lia. reflexivity.
Qed.
Lemma set_nth_other {A} (l : list A) i j a : i < length l -> j <> i -> nth_error (set_nth l i a) j = nth_error l j.
Proof.
  intros H N. unfold set_nth. destruct (Nat.lt_ge_cases j i).
  - rewrite nth_error_app1 by (rewrite firstn_length; lia). revert i H N H0. revert j. induction l as [|b l IH]; intros j i H N L; [simpl in H; lia|].
    destruct i; [lia|]. destruct j; [reflexivity|]. simpl. apply IH; simpl in *; lia.
  - rewrite nth_error_app2 by (rewrite firstn_length; lia). rewrite firstn_length.
    replace (j - Nat.min i (length l)) with (S (j - S i)) by lia. cbn [nth_error].
    rewrite <- (firstn_skipn (S i) l) at 2. rewrite nth_error_app2 by (rewrite firstn_length; lia). rewrite firstn_length. f_equal. lia.
Qed.
Lemma nth_lt {A} (l : list A) i a : nth_error l i = Some a -> i < length l.
Proof. intros H. apply nth_error_Some. congruence. Qed.
Lemma hget_unlock l a b : hget Nat.eqb b (unlock l a) = if Nat.eqb b a then None else hget Nat.eqb b l.
Proof.
  induction l as [|[c j] l IH]; [simpl; destruct (Nat.eqb b a); reflexivity|]. unfold unlock in *. cbn [filter fst].
  destruct (Nat.eqb c a) eqn:E; cbn [negb]; simpl hget.
  - rewrite IH. apply Nat.eqb_eq in E as ->. destruct (Nat.eqb b a) eqn:F; reflexivity.
  - rewrite IH. destruct (Nat.eqb b c) eqn:F; [|reflexivity]. apply Nat.eqb_eq in F as ->. rewrite E. reflexivity.
Qed.

Lemma app_eq_app_len {A} (a b c d : list A) : length a = length c -> a ++ b = c ++ d -> a = c /\ b = d.
Proof.
  revert c. induction a as [|v a IH]; intros [|w c] L E; try discriminate; auto. injection E as -> E. destruct (IH c) as [-> ->]; auto.
Qed.

Section Share.
  Context (x : Ext) (js : output -> outcome str) (cs : output -> outcome output).
  Local Notation plan_of := (plan_of x js cs).
  Local Notation hstep := (hstep x js cs).
  Local Notation hrun := (hrun x js cs).
  Local Notation step := (step x js cs).

  Lemma plan_address env n c : plan_of (with_address env n) c = plan_of env c.
  Proof. destruct c; reflexivity. Qed.
  Lemma step_plan w env c : step w env c = match plan_of env c with
      | Fixed r => wrap w r | Making m => new_client w env m | Locking p k => locked w (get_client w p) k | Freeing p => destroy_client w p end.
  Proof.
    destruct c; try reflexivity; unfold M_Ffi.step, run_parse, run_get_slots, run_get_intents, M_Share.plan_of, plan_parse, plan_slots, plan_intents;
      repeat match goal with |- context [rust_string ?s] => destruct (rust_string s) as [[?|?|]|]; cbn [first before]; try reflexivity end.
  Qed.

  (** ** The invariant *)
  Definition thread_ok (h : Host) (i : nat) (t : Caller) : Prop :=
    match ca_place t with
    | Outside => True
    | Made m => exists env c rest, ca_todo t = (env, c) :: rest /\ plan_of env c = Making m
    | Inside a k => hget Nat.eqb a (ho_locks h) = Some i /\
        exists env c rest en, ca_todo t = (env, c) :: rest /\ plan_of env c = Locking (Some a) k /\ hget Nat.eqb a (ho_clients h) = Some (mkClient en false)
    | Leaving a r => hget Nat.eqb a (ho_locks h) = Some i /\
        exists env c rest en k, ca_todo t = (env, c) :: rest /\ plan_of env c = Locking (Some a) k /\
          hget Nat.eqb a (ho_clients h) = Some (mkClient en false) /\ r = k en
    end.
  Definition good (h : Host) : Prop :=
    (forall i t, nth_error (ho_callers h) i = Some t -> thread_ok h i t) /\
    (forall a i, hget Nat.eqb a (ho_locks h) = Some i -> works_on h i a).

  Lemma works_same h i a t : nth_error (ho_callers h) i = Some t -> works_on h i a ->
    match ca_place t with Inside b _ | Leaving b _ => a = b | Outside | Made _ => False end.
  Proof. intros E (u & E' & H). rewrite E in E'. injection E' as <-. exact H. Qed.

  (** Another thread: it keeps what it holds. *)
  Lemma other_ok h h' j u : thread_ok h j u ->
    (forall a, hget Nat.eqb a (ho_locks h) = Some j -> hget Nat.eqb a (ho_locks h') = Some j /\ hget Nat.eqb a (ho_clients h') = hget Nat.eqb a (ho_clients h)) ->
    thread_ok h' j u.
  Proof.
    unfold thread_ok. intros T K. destruct (ca_place u) as [|m|a k|a r]; auto.
    - destruct T as [L (env & c & rest & en & A & B & C)]. destruct (K a L) as [L' C']. split; auto. exists env, c, rest, en. rewrite C'. auto.
    - destruct T as [L (env & c & rest & en & k & A & B & C & D)]. destruct (K a L) as [L' C']. split; auto. exists env, c, rest, en, k. rewrite C'. auto.
  Qed.
  Lemma good_change h h' i t t' : good h -> nth_error (ho_callers h) i = Some t -> ho_callers h' = set_nth (ho_callers h) i t' ->
    thread_ok h' i t' ->
    (forall a j, j <> i -> hget Nat.eqb a (ho_locks h) = Some j ->
       hget Nat.eqb a (ho_locks h') = Some j /\ hget Nat.eqb a (ho_clients h') = hget Nat.eqb a (ho_clients h)) ->
    (forall a j, j <> i -> hget Nat.eqb a (ho_locks h') = Some j -> hget Nat.eqb a (ho_locks h) = Some j) ->
    (forall a, hget Nat.eqb a (ho_locks h') = Some i -> match ca_place t' with Inside b _ | Leaving b _ => a = b | Outside | Made _ => False end) ->
    good h'.
  Proof.
    intros [T L] N E T' K1 K2 K3. pose proof (nth_lt _ _ _ N) as Lt. split.
    - intros j u J. rewrite E in J. destruct (Nat.eq_dec j i) as [->|D].
      + rewrite set_nth_same in J by exact Lt. injection J as <-. exact T'.
      + rewrite set_nth_other in J by assumption. eapply other_ok; eauto.
    - intros a j J. destruct (Nat.eq_dec j i) as [->|D].
      + exists t'. split; [rewrite E; apply set_nth_same; exact Lt|exact (K3 a J)].
      + destruct (L a j (K2 a j D J)) as (u & U & P). exists u. split; [rewrite E, set_nth_other by assumption; exact U|exact P].
  Qed.

  Lemma wrap_clients w r : w_clients (fst (wrap w r)) = w_clients w.
  Proof. destruct r as [[o|e|]|]; reflexivity. Qed.
  Lemma new_client_get w env m b : hget Nat.eqb (env_address env) (w_clients w) = None -> hget Nat.eqb b (w_clients w) <> None ->
    hget Nat.eqb b (w_clients (fst (new_client w env m))) = hget Nat.eqb b (w_clients w).
  Proof.
    intros F N. unfold new_client. destruct m as [[en|e|]|]; cbn [first]; try (rewrite wrap_clients; reflexivity).
    cbn [fst w_clients]. simpl. destruct (Nat.eqb b (env_address env)) eqn:E; auto. apply Nat.eqb_eq in E as ->. contradiction.
  Qed.
  Lemma destroy_get w p b : p <> Some b -> hget Nat.eqb b (w_clients (fst (destroy_client w p))) = hget Nat.eqb b (w_clients w).
  Proof.
    intros N. unfold destroy_client. destruct p as [a|]; [|reflexivity]. destruct (hget Nat.eqb a (w_clients w)) as [v0|]; [|reflexivity]. clear v0.
    cbn [fst w_clients]. induction (w_clients w) as [|[c v] l IH]; auto. cbn [filter fst].
    destruct (Nat.eqb c a) eqn:E; cbn [negb]; simpl hget.
    - rewrite IH. destruct (Nat.eqb b c) eqn:F; auto. apply Nat.eqb_eq in E, F. congruence.
    - rewrite IH. reflexivity.
  Qed.
  Lemma poison_get w a b : b <> a -> hget Nat.eqb b (w_clients (poison w a)) = hget Nat.eqb b (w_clients w).
  Proof.
    intros N. unfold poison. cbn [w_clients]. induction (w_clients w) as [|[c v] l IH]; auto. cbn [map fst].
    destruct (Nat.eqb c a) eqn:E; simpl hget; rewrite IH; auto.
    destruct (Nat.eqb b c) eqn:F; auto. apply Nat.eqb_eq in E, F. congruence.
  Qed.

  (** ** One step *)
  (** What a step is, for a thread whose invariant holds. *)
  Lemma hstep_cases h i new h' : good h -> hstep h i new = Some h' ->
    exists t env0 c rest, nth_error (ho_callers h) i = Some t /\ ca_todo t = (env0, c) :: rest /\ good h' /\
    ((exists locks p, h' = goes_on h i t locks p /\ steps_left (mkCaller p (ca_todo t) (ca_error t)) < steps_left t) \/
     (exists locks wr, h' = returns h i (with_address env0 new, c) rest locks wr /\
        ((creates c -> hget Nat.eqb new (ho_clients h) = None) /\ wr = step (world_of h t) (with_address env0 new) c \/
         (exists a, c = DestroyClient (Some a) /\ is_held h a = true) /\ wr = (world_of h t, RUndefined)))).
  Proof.
    intros G. pose proof G as [T L]. unfold M_Share.hstep. destruct (nth_error (ho_callers h) i) as [t|] eqn:N; [|discriminate].
    destruct (ca_todo t) as [|[env0 c] rest] eqn:D; [discriminate|]. specialize (T i t N) as Ti.
    assert (OUT : ca_place t = Outside \/ (exists m, ca_place t = Made m) -> forall a, hget Nat.eqb a (ho_locks h) <> Some i).
    { intros P a Q. pose proof (works_same _ _ _ _ N (L _ _ Q)) as W. destruct P as [P|[m P]]; rewrite P in W; exact W. }
    pose proof (step_plan (world_of h t) (with_address env0 new) c) as S. rewrite plan_address in S.
    (* a call that returns without touching the locks *)
    assert (RET : (ca_place t = Outside \/ (exists m, ca_place t = Made m)) -> forall wr, h' = returns h i (with_address env0 new, c) rest (ho_locks h) wr ->
      (forall a j, j <> i -> hget Nat.eqb a (ho_locks h) = Some j -> hget Nat.eqb a (w_clients (fst wr)) = hget Nat.eqb a (ho_clients h)) -> good h').
    { intros P wr -> K. eapply (good_change h _ i t); [exact G|exact N|reflexivity|exact I| | |].
      - intros a j Dj J. split; [exact J|]. apply (K a j Dj J).
      - intros a j _ J. exact J.
      - intros a J. exfalso. exact (OUT P a J). }
    intros E. exists t, env0, c, rest. split; [reflexivity|]. split; [exact D|].
    destruct (ca_place t) as [|m|a k|a r] eqn:P.
    - rewrite plan_address in E. destruct (plan_of env0 c) as [r|m|p k|p] eqn:Q.
      + injection E as <-. split; [eapply RET; [auto|reflexivity|]; intros; rewrite ?wrap_clients; reflexivity|]. right. eexists _, _. split; [reflexivity|].
        left. split; [|symmetry; exact S]. intros Cr. destruct c; try contradiction; discriminate.
      + injection E as <-. split.
        * eapply (good_change h _ i t); [exact G|exact N|reflexivity| | | |].
          -- cbn [thread_ok ca_place]. exists env0, c, rest. auto.
          -- intros a j Dj J. split; [exact J|reflexivity].
          -- intros a j _ J. exact J.
          -- intros a J. exfalso. exact (OUT (or_introl eq_refl) a J).
        * left. eexists _, _. split; [reflexivity|]. unfold steps_left. rewrite P, D. cbn [ca_place ca_todo length]. lia.
      + destruct p as [a|].
        2: { injection E as <-. split; [eapply RET; [auto|reflexivity|]; intros; rewrite ?wrap_clients; reflexivity|]. right. eexists _, _. split; [reflexivity|].
             left. split; [|symmetry; exact S]. intros Cr. destruct c; try contradiction; discriminate. }
        destruct (hget Nat.eqb a (ho_clients h)) as [[en po]|] eqn:H.
        2: { injection E as <-. split; [eapply RET; [auto|reflexivity|]; intros; rewrite ?wrap_clients; reflexivity|]. right. eexists _, _. split; [reflexivity|].
             left. split; [intros Cr; destruct c; try contradiction; discriminate|]. rewrite S. cbn [get_client world_of w_clients]. rewrite H. reflexivity. }
        cbn [cl_poisoned] in E. destruct (is_held h a) eqn:Hd; [discriminate|]. destruct po.
        * injection E as <-. split; [eapply RET; [auto|reflexivity|]; intros; rewrite ?wrap_clients; reflexivity|]. right. eexists _, _. split; [reflexivity|].
          left. split; [intros Cr; destruct c; try contradiction; discriminate|]. rewrite S. cbn [get_client world_of w_clients]. rewrite H. reflexivity.
        * assert (F : hget Nat.eqb a (ho_locks h) = None) by (unfold is_held in Hd; destruct (hget Nat.eqb a (ho_locks h)); [discriminate|reflexivity]).
          injection E as <-. split.
          -- eapply (good_change h _ i t); [exact G|exact N|reflexivity| | | |].
             ++ cbn [thread_ok ca_place goes_on ho_locks]. simpl. rewrite Nat.eqb_refl. split; auto. exists env0, c, rest, en. auto.
             ++ intros b j Dj J. split; [|reflexivity]. cbn [goes_on ho_locks]. simpl. destruct (Nat.eqb b a) eqn:B; auto. apply Nat.eqb_eq in B as ->. congruence.
             ++ intros b j Dj J. cbn [goes_on ho_locks] in J. simpl in J. destruct (Nat.eqb b a) eqn:B; auto. congruence.
             ++ intros b J. cbn [goes_on ho_locks] in J. simpl in J. destruct (Nat.eqb b a) eqn:B; [apply Nat.eqb_eq in B; auto|].
                exfalso. exact (OUT (or_introl eq_refl) b J).
          -- left. eexists _, _. split; [reflexivity|]. unfold steps_left. rewrite P, D. cbn [ca_place ca_todo length]. lia.
      + injection E as E. assert (Cp : c = DestroyClient p).
        { destruct c; cbn [M_Share.plan_of] in Q; try discriminate; try (injection Q as ->; reflexivity); exfalso; revert Q;
            unfold plan_parse, plan_slots, plan_intents;
            repeat match goal with |- context [rust_string ?s] => destruct (rust_string s) as [[?|?|]|]; cbn [before]; try discriminate end. }
        destruct p as [a|].
        * destruct (is_held h a) eqn:Hd.
          -- subst h'. split; [eapply RET; [auto|reflexivity|]; intros; rewrite ?wrap_clients; reflexivity|]. right. eexists _, _. split; [reflexivity|].
             right. split; [|reflexivity]. exists a. auto.
          -- subst h'. split.
             ++ eapply RET; [auto|reflexivity|]. intros b j Dj J. apply destroy_get. intros Eb. injection Eb as ->. unfold is_held in Hd. rewrite J in Hd. discriminate.
             ++ right. eexists _, _. split; [reflexivity|]. left. split; [rewrite Cp; intros []|symmetry; exact S].
        * subst h'. split; [eapply RET; [auto|reflexivity|]; intros; apply destroy_get; discriminate|]. right. eexists _, _. split; [reflexivity|].
          left. split; [rewrite Cp; intros []|symmetry; exact S].
    - unfold thread_ok in Ti. rewrite P in Ti. destruct Ti as (env' & c' & rest' & D' & Q). rewrite D in D'. injection D' as <- <- <-. rewrite Q in S.
      destruct (hget Nat.eqb new (ho_clients h)) eqn:F; [discriminate|]. injection E as <-. split.
      + eapply RET; [eauto|reflexivity|]. intros b j Dj J. apply new_client_get; [exact F|].
        destruct (L b j J) as (u & U & W). pose proof (T j u U) as Tj. unfold thread_ok in Tj. destruct (ca_place u); try contradiction; subst b.
        * destruct Tj as [_ (e1 & e2 & e3 & e4 & _ & _ & e5)]. cbn [world_of w_clients]. rewrite e5. discriminate.
        * destruct Tj as [_ (e1 & e2 & e3 & e4 & e5 & _ & _ & e6 & _)]. cbn [world_of w_clients]. rewrite e6. discriminate.
      + right. eexists _, _. split; [reflexivity|]. left. split; [auto|symmetry; exact S].
    - unfold thread_ok in Ti. rewrite P in Ti. destruct Ti as [Lk (env' & c' & rest' & en & D' & Q & Cl)]. rewrite D in D'. injection D' as <- <- <-.
      injection E as <-. split.
      + eapply (good_change h _ i t); [exact G|exact N|reflexivity| | | |].
        * cbn [thread_ok ca_place goes_on ho_locks ho_clients]. split; [exact Lk|]. rewrite Cl. exists env0, c, rest, en, k. auto.
        * intros b j Dj J. split; [exact J|reflexivity].
        * intros b j _ J. exact J.
        * intros b J. cbn [ca_place]. pose proof (works_same _ _ _ _ N (L _ _ J)) as W. rewrite P in W. exact W.
      + left. eexists _, _. split; [reflexivity|]. unfold steps_left. rewrite P, D. cbn [ca_place ca_todo length]. lia.
    - unfold thread_ok in Ti. rewrite P in Ti. destruct Ti as [Lk (env' & c' & rest' & en & k & D' & Q & Cl & Er)]. rewrite D in D'. injection D' as <- <- <-.
      injection E as <-. split.
      + eapply (good_change h _ i t); [exact G|exact N|reflexivity|exact I| | |]; cbn [returns ho_locks ho_clients].
        * intros b j Dj J. rewrite hget_unlock. destruct (Nat.eqb b a) eqn:B; [apply Nat.eqb_eq in B as ->; congruence|]. apply Nat.eqb_neq in B.
          split; [exact J|]. destruct r as [[o|e|]|]; try (rewrite wrap_clients; reflexivity). apply (poison_get (world_of h t)). exact B.
        * intros b j Dj J. rewrite hget_unlock in J. destruct (Nat.eqb b a); [discriminate|exact J].
        * intros b J. rewrite hget_unlock in J. destruct (Nat.eqb b a) eqn:B; [discriminate|]. pose proof (works_same _ _ _ _ N (L _ _ J)) as W. rewrite P in W.
          subst b. rewrite Nat.eqb_refl in B. discriminate.
      + right. eexists _, _. split; [reflexivity|]. left. split; [intros Cr; destruct c; try contradiction; discriminate|].
        rewrite S, Q. cbn [get_client world_of w_clients]. rewrite Cl. cbn [cl_poisoned cl_engine locked]. rewrite <- Er. destruct r as [[o|e|]|]; reflexivity.
  Qed.

  (** ** Calls one after the other *)
  Lemma one_by_one_app l : forall cl er i env c,
    one_by_one x js cs cl er (l ++ [(i, (env, c))]) =
    let '(cl', er', rs) := one_by_one x js cs cl er l in
    let (w, a) := step (mkWorld cl' (er' i)) env c in
    (w_clients w, fun j => if Nat.eqb j i then w_error w else er' j, rs ++ [a]).
  Proof.
    induction l as [|[j [e d]] l IH]; intros cl er i env c; cbn [app one_by_one].
    - destruct (step (mkWorld cl (er i)) env c) as [w a]. reflexivity.
    - destruct (step (mkWorld cl (er j)) e d) as [w a]. rewrite IH.
      destruct (one_by_one x js cs (w_clients w) (fun k => if Nat.eqb k j then w_error w else er k) l) as [[cl' er'] rs].
      destruct (step (mkWorld cl' (er' i)) env c) as [w' a']. reflexivity.
  Qed.
  Lemma wrap_snd w1 w2 r : snd (wrap w1 r) = snd (wrap w2 r).
  Proof. destruct r as [[o|e|]|]; reflexivity. Qed.
  Lemma step_error w1 w2 env c : w_clients w1 = w_clients w2 ->
    snd (step w1 env c) = snd (step w2 env c) /\ w_clients (fst (step w1 env c)) = w_clients (fst (step w2 env c)).
  Proof.
    intros E. rewrite !step_plan. destruct (plan_of env c) as [r|m|p k|p].
    - rewrite !wrap_clients. split; [apply wrap_snd|exact E].
    - unfold new_client. destruct m as [[en|e|]|]; cbn [first]; rewrite ?wrap_clients; split; auto. cbn [fst w_clients]. congruence.
    - unfold get_client. destruct p as [a|]; [|cbn [locked wrap fst snd w_clients]; auto]. rewrite E. destruct (hget Nat.eqb a (w_clients w2)) as [[en po]|]; [|cbn [locked wrap fst snd]; auto].
      cbn [cl_poisoned cl_engine]. destruct po; cbn [locked wrap fst snd w_clients]; [auto|].
      destruct (k en) as [[o|e|]|]; rewrite ?wrap_clients; cbn [wrap fst snd w_clients poison]; rewrite ?E; auto.
    - unfold destroy_client. destruct p as [a|]; [|cbn [wrap fst snd w_clients]; auto]. rewrite E. destruct (hget Nat.eqb a (w_clients w2)); cbn [wrap fst snd w_clients]; auto.
  Qed.
  Lemma one_by_one_run l : forall cl er w, w_clients w = cl ->
    w_clients (fst (run x js cs w (map snd l))) = fst (fst (one_by_one x js cs cl er l)) /\
    snd (run x js cs w (map snd l)) = snd (one_by_one x js cs cl er l).
  Proof.
    induction l as [|[j [e d]] l IH]; intros cl er w E; [split; [exact E|reflexivity]|]. cbn [map snd run one_by_one].
    destruct (step_error w (mkWorld cl (er j)) e d E) as [A B].
    destruct (step w e d) as [w1 a1]. destruct (step (mkWorld cl (er j)) e d) as [w2 a2]. cbn [fst snd] in A, B. subst a2.
    specialize (IH (w_clients w2) (fun k => if Nat.eqb k j then w_error w2 else er k) w1 B).
    destruct (run x js cs w1 (map snd l)) as [w3 rs]. destruct (one_by_one x js cs (w_clients w2) _ l) as [[cl' er'] rs'].
    cbn [fst snd] in *. destruct IH as [-> ->]. auto.
  Qed.
  Lemma allocator_app l : forall w env c, allocator_ok x js cs w l ->
    (creates c -> hget Nat.eqb (env_address env) (w_clients (fst (run x js cs w l))) = None) -> allocator_ok x js cs w (l ++ [(env, c)]).
  Proof.
    induction l as [|[e d] l IH]; intros w env c A F; cbn [app allocator_ok] in *; [split; auto|].
    destruct A as [A1 A2]. split; auto. apply IH; auto. cbn [run] in F. destruct (step w e d) as [w1 a]. cbn [fst] in *.
    destruct (run x js cs w1 l) as [w2 rs]. exact F.
  Qed.

  (** ** Runs *)
  Definition explained (cl : list (nat * Client)) (h : Host) : Prop :=
    exists errs, one_by_one x js cs cl (fun _ => None) (returned h) = (ho_clients h, errs, answers h) /\
      (forall i t, nth_error (ho_callers h) i = Some t -> ca_error t = errs i) /\
      allocator_ok x js cs (mkWorld cl None) (map snd (returned h)).
  Definition in_order (programs : list (list (Env * call))) (h : Host) : Prop :=
    forall i p, nth_error programs i = Some p -> exists t done,
      nth_error (ho_callers h) i = Some t /\ p = done ++ ca_todo t /\ Forall2 same_call done (returned_by h i).
  Definition inv (cl : list (nat * Client)) programs (h : Host) : Prop :=
    good h /\ in_order programs h /\ (~ In RUndefined (answers h) -> explained cl h).

  Lemma start_inv cl programs : inv cl programs (hstart cl programs).
  Proof.
    unfold hstart. split; [split|split].
    - intros i t H. cbn [ho_callers] in H. apply map_nth_error_inv in H as (p & _ & <-) || (rewrite nth_error_map in H; destruct (nth_error programs i); [|discriminate]; injection H as <-). exact I.
    - intros a i H. discriminate.
    - intros i p H. exists (mkCaller Outside p None), []. cbn [ho_callers ca_todo]. split; [rewrite nth_error_map, H; reflexivity|]. split; [reflexivity|constructor].
    - intros _. exists (fun _ => None). split; [reflexivity|]. split; [|exact I]. intros i t H. cbn [ho_callers] in H. rewrite nth_error_map in H.
      destruct (nth_error programs i); [|discriminate]. injection H as <-. reflexivity.
  Qed.
  Lemma returned_returns h i e rest locks wr : returned (returns h i e rest locks wr) = returned h ++ [(i, e)].
  Proof. unfold returned, returns. cbn [ho_log]. rewrite map_app. reflexivity. Qed.
  Lemma answers_returns h i e rest locks wr : answers (returns h i e rest locks wr) = answers h ++ [snd wr].
  Proof. unfold answers, returns. cbn [ho_log]. rewrite map_app. reflexivity. Qed.
  Lemma returned_by_returns h i e rest locks wr j :
    returned_by (returns h i e rest locks wr) j = returned_by h j ++ (if Nat.eqb i j then [e] else []).
  Proof.
    unfold returned_by. rewrite returned_returns, filter_app, map_app. f_equal. cbn [filter fst]. destruct (Nat.eqb i j); reflexivity.
  Qed.
  Lemma step_inv cl programs h i new h' : inv cl programs h -> hstep h i new = Some h' -> inv cl programs h'.
  Proof.
    intros (G & O & X) E. destruct (hstep_cases _ _ _ _ G E) as (t & env0 & c & rest & N & D & G' & [(locks & p & -> & _)|(locks & wr & -> & H)]).
    - pose proof (nth_lt _ _ _ N) as Lt. split; [exact G'|]. split.
      + intros j q Q. destruct (O j q Q) as (u & dn & U & A & B). destruct (Nat.eq_dec j i) as [->|Dj].
        * rewrite N in U. injection U as <-. exists (mkCaller p (ca_todo t) (ca_error t)), dn. split; [apply set_nth_same; exact Lt|]. auto.
        * exists u, dn. split; [cbn [goes_on ho_callers]; rewrite set_nth_other; assumption|]. auto.
      + intros NU. destruct (X NU) as (errs & A & B & C). exists errs. split; [exact A|]. split; [|exact C].
        intros j u U. cbn [goes_on ho_callers] in U. destruct (Nat.eq_dec j i) as [->|Dj].
        * rewrite set_nth_same in U by exact Lt. injection U as <-. exact (B i t N).
        * rewrite set_nth_other in U by assumption. exact (B j u U).
    - pose proof (nth_lt _ _ _ N) as Lt. split; [exact G'|]. split.
      + intros j q Q. destruct (O j q Q) as (u & dn & U & A & B). rewrite returned_by_returns. destruct (Nat.eq_dec j i) as [->|Dj].
        * rewrite N in U. injection U as <-. exists (mkCaller Outside rest (w_error (fst wr))), (dn ++ [(env0, c)]).
          split; [apply set_nth_same; exact Lt|]. split; [rewrite A, D, <- app_assoc; reflexivity|]. rewrite Nat.eqb_refl.
          apply Forall2_app; [exact B|]. constructor; [|constructor]. split; reflexivity.
        * exists u, dn. split; [cbn [returns ho_callers]; rewrite set_nth_other; assumption|]. split; [exact A|].
          destruct (Nat.eqb i j) eqn:Eij; [apply Nat.eqb_eq in Eij; congruence|]. rewrite app_nil_r. exact B.
      + rewrite answers_returns. intros NU. assert (NU0 : ~ In RUndefined (answers h)) by (intros K; apply NU; apply in_or_app; left; exact K).
        destruct (X NU0) as (errs & A & B & C). destruct H as [[F ->]|[_ ->]].
        2: { exfalso. apply NU. apply in_or_app. right. left. reflexivity. }
        unfold explained. rewrite returned_returns, answers_returns, one_by_one_app, A.
        unfold world_of. rewrite (B i t N). destruct (step (mkWorld (ho_clients h) (errs i)) (with_address env0 new) c) as [w a] eqn:S. cbn [fst snd].
        eexists. split; [reflexivity|]. split.
        * intros j u U. cbn [returns ho_callers fst] in U. destruct (Nat.eq_dec j i) as [->|Dj].
          -- rewrite set_nth_same in U by exact Lt. injection U as <-. rewrite Nat.eqb_refl. reflexivity.
          -- rewrite set_nth_other in U by assumption. destruct (Nat.eqb j i) eqn:Eij; [apply Nat.eqb_eq in Eij; congruence|]. exact (B j u U).
        * rewrite map_app. cbn [map snd]. apply allocator_app; [exact C|]. intros Cr.
          destruct (one_by_one_run (returned h) cl (fun _ => None) (mkWorld cl None) eq_refl) as [R _]. rewrite R, A. cbn [fst env_address with_address]. exact (F Cr).
  Qed.
  Lemma run_inv cl programs l : forall h, inv cl programs h -> inv cl programs (hrun h l).
  Proof.
    induction l as [|[i new] l IH]; intros h H; cbn [M_Share.hrun]; auto. apply IH. destruct (hstep h i new) eqn:E; auto. eapply step_inv; eauto.
  Qed.

  (** ** What follows *)
  Lemma shared_linear cl programs schedule : let h := hrun (hstart cl programs) schedule in ~ In RUndefined (answers h) ->
    exists errs, one_by_one x js cs cl (fun _ => None) (returned h) = (ho_clients h, errs, answers h) /\
      (forall i t, nth_error (ho_callers h) i = Some t -> ca_error t = errs i).
  Proof. intros h N. destruct (run_inv cl programs schedule _ (start_inv cl programs)) as (_ & _ & X). destruct (X N) as (errs & A & B & _). eauto. Qed.
  Lemma shared_order cl programs schedule i p : nth_error programs i = Some p ->
    let h := hrun (hstart cl programs) schedule in
    exists t done, nth_error (ho_callers h) i = Some t /\ p = done ++ ca_todo t /\ Forall2 same_call done (returned_by h i).
  Proof. intros N h. destruct (run_inv cl programs schedule _ (start_inv cl programs)) as (_ & O & _). exact (O i p N). Qed.
  Lemma shared_time h l : exists more, ho_log (hrun h l) = ho_log h ++ more.
  Proof.
    revert h. induction l as [|[i new] l IH]; intros h; cbn [M_Share.hrun]; [exists []; rewrite app_nil_r; reflexivity|].
    destruct (hstep h i new) as [h1|] eqn:E; [|apply IH]. destruct (IH h1) as [more M]. rewrite M.
    assert (L : exists m1, ho_log h1 = ho_log h ++ m1).
    { unfold M_Share.hstep in E. destruct (nth_error (ho_callers h) i) as [t|]; [|discriminate]. destruct (ca_todo t) as [|[env c] rest]; [discriminate|].
      assert (GO : forall locks p, Some (goes_on h i t locks p) = Some h1 -> exists m1, ho_log h1 = ho_log h ++ m1)
        by (intros locks p Q; injection Q as <-; exists []; rewrite app_nil_r; reflexivity).
      assert (RE : forall e locks wr, Some (returns h i e rest locks wr) = Some h1 -> exists m1, ho_log h1 = ho_log h ++ m1)
        by (intros e locks wr Q; injection Q as <-; eexists; reflexivity).
      destruct (ca_place t); [destruct (plan_of (with_address env new) c) as [r|m|[a|] k|p]| | | ]; eauto.
      - destruct (hget Nat.eqb a (ho_clients h)) as [[en po]|]; eauto. destruct (is_held h a); [discriminate|]. destruct po; cbn [cl_poisoned] in E; eauto.
      - destruct (hget Nat.eqb new (ho_clients h)); [discriminate|]. eauto. }
    destruct L as [m1 ->]. exists (m1 ++ more). rewrite app_assoc. reflexivity.
  Qed.
  Lemma good_run cl programs schedule : good (hrun (hstart cl programs) schedule).
  Proof. apply (run_inv cl programs schedule _ (start_inv cl programs)). Qed.
  Lemma works_locked h i a : good h -> works_on h i a -> hget Nat.eqb a (ho_locks h) = Some i.
  Proof.
    intros [T L] (t & N & W). specialize (T i t N). unfold thread_ok in T. destruct (ca_place t); try contradiction; subst; apply T.
  Qed.
  Lemma one_at_a_time cl programs schedule i j a : let h := hrun (hstart cl programs) schedule in
    works_on h i a -> works_on h j a -> i = j.
  Proof.
    intros h A B. pose proof (good_run cl programs schedule) as G. apply (works_locked _ _ _ G) in A. apply (works_locked _ _ _ G) in B. congruence.
  Qed.
  Lemma fresh_exists (l : list (nat * Client)) : exists a, hget Nat.eqb a l = None.
  Proof.
    exists (S (list_max (map fst l))). assert (H : forall b, In b (map fst l) -> b < S (list_max (map fst l))).
    { intros b I. assert (Q := proj1 (list_max_le (map fst l) (list_max (map fst l))) (le_n _)). rewrite Forall_forall in Q. specialize (Q b I). lia. }
    generalize dependent (S (list_max (map fst l))). intros n H. induction l as [|[c v] l IH]; auto. simpl.
    assert (c < n) by (apply H; left; reflexivity). destruct (Nat.eqb n c) eqn:E; [apply Nat.eqb_eq in E; lia|]. apply IH. intros b I. apply H. right. exact I.
  Qed.
  Lemma shared_progress cl programs schedule i : let h := hrun (hstart cl programs) schedule in
    busy h i -> exists j new h', hstep h j new = Some h'.
  Proof.
    intros h (t & N & B). pose proof (good_run cl programs schedule) as G. fold h in G.
    destruct (fresh_exists (ho_clients h)) as [new F].
    assert (IN : forall j a, works_on h j a -> exists h', hstep h j new = Some h').
    { intros j a (u & U & W). pose proof (proj1 G j u U) as T. unfold thread_ok in T. unfold M_Share.hstep. rewrite U.
      destruct (ca_place u); try contradiction.
      - destruct T as [_ (env & c & rest & en & D & _)]. rewrite D. eexists. reflexivity.
      - destruct T as [_ (env & c & rest & en & k & D & _)]. rewrite D. eexists. reflexivity. }
    destruct (ca_todo t) as [|[env c] rest] eqn:D; [contradiction|].
    destruct (ca_place t) as [|m|a k|a r] eqn:P.
    - destruct (plan_of (with_address env new) c) as [r|m|[a|] k|p] eqn:Q;
        try (exists i, new; unfold M_Share.hstep; rewrite N, D, P, Q; eexists; reflexivity).
      destruct (hget Nat.eqb a (ho_clients h)) as [[en po]|] eqn:H.
      2: { exists i, new. unfold M_Share.hstep. rewrite N, D, P, Q, H. eexists. reflexivity. }
      destruct (is_held h a) eqn:Hd.
      + unfold is_held in Hd. destruct (hget Nat.eqb a (ho_locks h)) as [j|] eqn:J; [|discriminate].
        destruct (IN j a (proj2 G a j J)) as [h' S]. exists j, new, h'. exact S.
      + exists i, new. unfold M_Share.hstep. rewrite N, D, P, Q, H, Hd. destruct po; eexists; reflexivity.
    - exists i, new. unfold M_Share.hstep. rewrite N, D, P, F. eexists. reflexivity.
    - exists i, new. apply (IN i a). exists t. rewrite P. auto.
    - exists i, new. apply (IN i a). exists t. rewrite P. auto.
  Qed.
  Lemma sum_set {A} (f : A -> nat) l i a b : nth_error l i = Some a -> f b < f a -> list_sum (map f (set_nth l i b)) < list_sum (map f l).
  Proof.
    unfold set_nth. revert i. induction l as [|c l IH]; intros i H Q; [destruct i; discriminate|]. destruct i.
    - injection H as ->. cbn. lia.
    - cbn [firstn skipn app map list_sum fold_right]. specialize (IH i H Q). cbn [skipn] in IH. simpl. unfold list_sum in *. destruct l; [destruct i; discriminate|].
      cbn [skipn] in *. lia.
  Qed.
  Lemma shared_bounded cl programs schedule i new h' : let h := hrun (hstart cl programs) schedule in
    hstep h i new = Some h' -> all_steps_left h' < all_steps_left h.
  Proof.
    intros h E. destruct (hstep_cases _ _ _ _ (good_run cl programs schedule) E) as (t & env0 & c & rest & N & D & _ & [(locks & p & -> & Lt)|(locks & wr & -> & _)]).
    - apply (sum_set steps_left _ _ t); [exact N|exact Lt].
    - apply (sum_set steps_left _ _ t); [exact N|]. unfold steps_left. rewrite D. cbn [ca_place ca_todo length]. destruct (ca_place t); lia.
  Qed.
  Lemma own_error h i new h' j : hstep h i new = Some h' -> j <> i -> nth_error (ho_callers h') j = nth_error (ho_callers h) j.
  Proof.
    unfold M_Share.hstep. intros E Dj. destruct (nth_error (ho_callers h) i) as [t|] eqn:N; [|discriminate]. destruct (ca_todo t) as [|[env c] rest]; [discriminate|].
    assert (GO : forall locks p, Some (goes_on h i t locks p) = Some h' -> nth_error (ho_callers h') j = nth_error (ho_callers h) j)
      by (intros locks p Q; injection Q as <-; apply set_nth_other; [exact (nth_lt _ _ _ N)|exact Dj]).
    assert (RE : forall e locks wr, Some (returns h i e rest locks wr) = Some h' -> nth_error (ho_callers h') j = nth_error (ho_callers h) j)
      by (intros e locks wr Q; injection Q as <-; apply set_nth_other; [exact (nth_lt _ _ _ N)|exact Dj]).
    destruct (ca_place t); [destruct (plan_of (with_address env new) c) as [r|m|[a|] k|p]| | | ]; eauto.
    - destruct (hget Nat.eqb a (ho_clients h)) as [[en po]|]; eauto. destruct (is_held h a); [discriminate|]. destruct po; cbn [cl_poisoned] in E; eauto.
    - destruct (hget Nat.eqb new (ho_clients h)); [discriminate|]. eauto.
  Qed.

  (** ** Careful programs *)
  Lemma hget_client w a : hget Nat.eqb a (w_clients w) <> None -> exists en p, client_at w a en p.
  Proof. unfold client_at. destruct (hget Nat.eqb a (w_clients w)) as [[en p]|]; [eauto|contradiction]. Qed.
  Definition all_careful cl (h : Host) : Prop :=
    (forall t e, In t (ho_callers h) -> In e (ca_todo t) -> careful cl (snd e)) /\
    (forall a, hget Nat.eqb a cl <> None -> hget Nat.eqb a (ho_clients h) <> None) /\ ~ In RUndefined (answers h).
  Lemma in_set {A} (l : list A) i a b : In b (set_nth l i a) -> b = a \/ In b l.
  Proof.
    unfold set_nth. rewrite in_app_iff. simpl. intros [H|[H|H]]; auto; right.
    - rewrite <- (firstn_skipn i l). apply in_or_app. auto.
    - rewrite <- (firstn_skipn (S i) l). apply in_or_app. auto.
  Qed.
  Lemma careful_step cl h i new h' : good h -> all_careful cl h -> hstep h i new = Some h' -> all_careful cl h'.
  Proof.
    intros G (C & K & U) E. destruct (hstep_cases _ _ _ _ G E) as (t & env0 & c & rest & N & D & _ & [(locks & p & -> & _)|(locks & wr & -> & H)]).
    - split; [|split; [exact K|exact U]]. intros u e I J. apply in_set in I as [->|I]; [|eauto]. apply (C t e); [eapply nth_error_In; eauto|exact J].
    - assert (Cc : careful cl c) by (apply (C t (env0, c)); [eapply nth_error_In; eauto|rewrite D; left; reflexivity]).
      split; [|split].
      + intros u e I J. apply in_set in I as [->|I]; [|eauto]. apply (C t e); [eapply nth_error_In; eauto|]. rewrite D. right. exact J.
      + intros a A. cbn [returns ho_clients]. destruct H as [[F ->]|[(b & -> & _) _]]; [|destruct Cc as [_ Cc]; exfalso; exact (Cc b eq_refl)].
        destruct (hget_client (world_of h t) a (K a A)) as (en & po & CA).
        pose proof (step_kept x js cs (world_of h t) (with_address env0 new) c a F (proj2 Cc a) en po CA) as Q. unfold client_at in Q. rewrite Q. discriminate.
      + rewrite answers_returns. intros I. apply in_app_or in I as [I|[I|[]]]; [exact (U I)|].
        destruct H as [[F ->]|[(b & -> & _) _]]; [|destruct Cc as [_ Cc]; exact (Cc b eq_refl)].
        apply undefined_only in I. destruct Cc as [M _]. apply M. destruct I as [(a & A & B)|I]; [|right; exact I].
        left. exists a. split; [exact A|]. cbn [w_clients]. destruct (hget Nat.eqb a cl) eqn:Q; auto. exfalso.
        apply (K a); [congruence|exact B].
  Qed.
  Lemma careful_run cl programs : (forall p e, In p programs -> In e p -> careful cl (snd e)) ->
    forall schedule, ~ In RUndefined (answers (hrun (hstart cl programs) schedule)).
  Proof.
    intros C schedule. cut (all_careful cl (hrun (hstart cl programs) schedule)); [intros (_ & _ & H); exact H|].
    assert (G := proj1 (start_inv cl programs)).
    assert (A : all_careful cl (hstart cl programs)).
    { split; [|split; [auto|intros []]]. intros t e I J. cbn [hstart ho_callers] in I. apply in_map_iff in I as (p & <- & I). exact (C p e I J). }
    revert G A. generalize (hstart cl programs). induction schedule as [|[i new] l IH]; intros h G A; cbn [M_Share.hrun]; auto.
    destruct (hstep h i new) as [h1|] eqn:E; [|auto]. apply IH; [|eapply careful_step; eauto].
    destruct (hstep_cases _ _ _ _ G E) as (t & env0 & c & rest & _ & _ & G' & _). exact G'.
  Qed.

  (** The calls that have returned are calls of the programs. *)
  Lemma returned_in cl programs schedule : let h := hrun (hstart cl programs) schedule in
    forall i e, In (i, e) (returned h) -> exists p e0, In p programs /\ In e0 p /\ same_call e0 e.
  Proof.
    intros h. assert (Q : forall i, In i (map fst (returned h)) -> i < length programs).
    { subst h. assert (H : forall h, length (ho_callers h) = length programs -> (forall i, In i (map fst (returned h)) -> i < length programs) ->
        forall i, In i (map fst (returned (hrun h schedule))) -> i < length programs).
      { induction schedule as [|[i new] l IH]; intros h Le A; cbn [M_Share.hrun]; auto. destruct (hstep h i new) as [h1|] eqn:E; [|exact (IH h Le A)].
        assert (Lt : i < length (ho_callers h)) by (unfold M_Share.hstep in E; destruct (nth_error (ho_callers h) i) eqn:N; [exact (nth_lt _ _ _ N)|discriminate]).
        assert (R : length (ho_callers h1) = length (ho_callers h) /\ (returned h1 = returned h \/ exists e, returned h1 = returned h ++ [(i, e)])).
        { unfold M_Share.hstep in E. destruct (nth_error (ho_callers h) i) as [t|]; [|discriminate]. destruct (ca_todo t) as [|[env c] rest]; [discriminate|].
          assert (GO : forall locks p, Some (goes_on h i t locks p) = Some h1 ->
            length (ho_callers h1) = length (ho_callers h) /\ (returned h1 = returned h \/ exists e, returned h1 = returned h ++ [(i, e)]))
            by (intros locks p Q; injection Q as <-; split; [apply set_nth_length; exact Lt|left; reflexivity]).
          assert (RE : forall e locks wr, Some (returns h i e rest locks wr) = Some h1 ->
            length (ho_callers h1) = length (ho_callers h) /\ (returned h1 = returned h \/ exists e, returned h1 = returned h ++ [(i, e)]))
            by (intros e locks wr Q; injection Q as <-; split; [apply set_nth_length; exact Lt|right; exists e; apply returned_returns]).
          destruct (ca_place t); [destruct (plan_of (with_address env new) c) as [r|m|[a|] k|p]| | | ]; eauto.
          - destruct (hget Nat.eqb a (ho_clients h)) as [[en po]|]; eauto. destruct (is_held h a); [discriminate|]. destruct po; cbn [cl_poisoned] in E; eauto.
          - destruct (hget Nat.eqb new (ho_clients h)); [discriminate|]. eauto. }
        destruct R as [R1 R2]. apply IH; [congruence|]. intros j J. destruct R2 as [R2|[e R2]]; rewrite R2 in J; auto.
        rewrite map_app in J. apply in_app_or in J as [J|[<-|[]]]; auto. cbn [fst]. lia. }
      apply H; [cbn; apply map_length|intros i []]. }
    intros i e I. assert (Lt : i < length programs) by (apply Q; apply (in_map fst) in I; exact I).
    destruct (nth_error programs i) as [p|] eqn:N; [|apply nth_error_None in N; lia].
    destruct (shared_order cl programs schedule i p N) as (t & dn & _ & P & F). fold h in F.
    assert (J : In e (returned_by h i)) by (unfold returned_by; apply in_map_iff; exists (i, e); split; auto; apply filter_In; split; auto; cbn; apply Nat.eqb_refl).
    clear - P F J N. revert p P N. assert (X : exists e0, In e0 dn /\ same_call e0 e).
    { induction F as [|a b l m R F IH]; [contradiction|]. destruct J as [<-|J]; [exists a; split; [left; auto|exact R]|]. destruct (IH J) as (e0 & A & B). exists e0. split; [right; auto|auto]. }
    intros p P N. destruct X as (e0 & A & B). exists p, e0. split; [eapply nth_error_In; eauto|]. split; [rewrite P; apply in_or_app; auto|exact B].
  Qed.
  Lemma same_step w e0 e : ~ creates (snd e) -> same_call e0 e -> step w (fst e0) (snd e0) = step w (fst e) (snd e).
  Proof.
    destruct e0 as [env0 c0], e as [env c]. intros N [A B]. cbn [fst snd] in *. subst c0. rewrite !step_plan.
    rewrite <- (plan_address env0 0 c), <- (plan_address env 0 c), B. destruct (plan_of (with_address env 0) c) eqn:P; auto.
    exfalso. apply N. rewrite plan_address in P. destruct c; cbn [creates]; auto; exfalso; revert P; cbn [M_Share.plan_of]; unfold plan_parse, plan_slots, plan_intents;
      repeat match goal with |- context [rust_string ?s] => destruct (rust_string s) as [[?|?|]|]; cbn [before]; try discriminate end; discriminate.
  Qed.

  (** A list of calls about a client that would not panic. *)
  Lemma run_app l : forall w m, snd (run x js cs w (l ++ m)) = snd (run x js cs w l) ++ snd (run x js cs (fst (run x js cs w l)) m).
  Proof.
    induction l as [|[e c] l IH]; intros w m; [reflexivity|]. cbn [app run]. destruct (step w e c) as [w1 a]. specialize (IH w1 m).
    destruct (run x js cs w1 (l ++ m)) as [w2 rs]. destruct (run x js cs w1 l) as [w3 rs3]. cbn [fst snd] in *. rewrite IH. reflexivity.
  Qed.
  Lemma run_length l : forall w, length (snd (run x js cs w l)) = length l.
  Proof.
    induction l as [|[e c] l IH]; intros w; [reflexivity|]. cbn [run]. destruct (step w e c) as [w1 a]. specialize (IH w1). destruct (run x js cs w1 l). cbn [snd length] in *. congruence.
  Qed.
  Lemma allocator_prefix l : forall w m, allocator_ok x js cs w (l ++ m) -> allocator_ok x js cs w l.
  Proof. induction l as [|[e c] l IH]; intros w m A; [exact I|]. destruct A as [A B]. split; auto. eapply IH; eauto. Qed.
  Lemma calm_answers w a en l : client_at w a en false -> allocator_ok x js cs w l -> (forall e, ~ In (e, DestroyClient (Some a)) l) ->
    (forall e d, In (e, d) l -> about d = Some a -> snd (step w e d) <> RPanic) ->
    forall k e d, nth_error l k = Some (e, d) -> about d = Some a -> nth_error (snd (run x js cs w l)) k = Some (snd (step w e d)).
  Proof.
    intros C. induction l as [|[e0 d0] l IH] using rev_ind; intros A ND NP k e d N Ab; [destruct k; discriminate|].
    assert (IH' := IH (allocator_prefix _ _ _ A) (fun e I => ND e (in_or_app _ _ _ (or_introl I))) (fun e d I => NP e d (in_or_app _ _ _ (or_introl I)))).
    rewrite run_app. destruct (Nat.lt_ge_cases k (length l)) as [Lt|Ge].
    - rewrite nth_error_app1 in N by exact Lt. rewrite nth_error_app1 by (rewrite run_length; exact Lt). apply IH'; auto.
    - rewrite nth_error_app2 in N by exact Ge. rewrite nth_error_app2 by (rewrite run_length; exact Ge). rewrite run_length.
      destruct (k - length l) as [|n]; [|destruct n; discriminate]. cbn [nth_error] in N |- *. injection N as -> ->. cbn [run].
      assert (H := after_any_history x js cs w l a en e d C (allocator_prefix _ _ _ A) (fun e I => ND e (in_or_app _ _ _ (or_introl I)))).
      destruct (step (fst (run x js cs w l)) e d) as [w1 r]. cbn [snd nth_error] in *. f_equal. apply H; auto.
      intros k' e' d' N' A' Q. rewrite (IH' k' e' d' N' A') in Q. injection Q as Q. apply (NP e' d'); auto. apply in_or_app. left. eapply nth_error_In; eauto.
  Qed.
  Lemma log_nth h k i e r : nth_error (ho_log h) k = Some (i, e, r) -> nth_error (map snd (returned h)) k = Some e /\ nth_error (answers h) k = Some r.
  Proof. intros N. unfold returned, answers. rewrite !nth_error_map, N. auto. Qed.

  Lemma shared_answers cl programs schedule a en :
    (forall p e, In p programs -> In e p -> careful cl (snd e)) -> client_at (mkWorld cl None) a en false ->
    (forall p e, In p programs -> In e p -> about (snd e) = Some a -> snd (step (mkWorld cl None) (fst e) (snd e)) <> RPanic) ->
    forall i e r, In (i, e, r) (ho_log (hrun (hstart cl programs) schedule)) -> about (snd e) = Some a ->
    r = snd (step (mkWorld cl None) (fst e) (snd e)).
  Proof.
    intros C CA NP i [env c] r I Ab. set (h := hrun (hstart cl programs) schedule) in *. cbn [fst snd] in *.
    destruct (run_inv cl programs schedule _ (start_inv cl programs)) as (_ & _ & X). fold h in X. destruct (X (careful_run _ _ C schedule)) as (errs & A & _ & Al).
    destruct (one_by_one_run (returned h) cl (fun _ => None) (mkWorld cl None) eq_refl) as [_ R]. rewrite A in R. cbn [snd] in R.
    apply In_nth_error in I as [k N]. destruct (log_nth _ _ _ _ _ N) as [N1 N2].
    assert (From : forall e d, In (e, d) (map snd (returned h)) -> exists p e0, In p programs /\ In e0 p /\ same_call e0 (e, d)).
    { intros e d J. apply in_map_iff in J as ([j ed] & Q & J). cbn [snd] in Q. subst ed. exact (returned_in cl programs schedule j (e, d) J). }
    assert (Cr : forall d, about d = Some a -> ~ creates d) by (intros d Q; destruct d; cbn in *; try discriminate; auto).
    assert (Q := calm_answers (mkWorld cl None) a en (map snd (returned h)) CA Al).
    rewrite R in Q. specialize (Q (fun e J => match From _ _ J with ex_intro _ p (ex_intro _ e0 (conj P1 (conj P2 (conj P3 _)))) =>
      proj2 (C p e0 P1 P2) a P3 end)).
    assert (NP' : forall e d, In (e, d) (map snd (returned h)) -> about d = Some a -> snd (step (mkWorld cl None) e d) <> RPanic).
    { intros e d J Q1. destruct (From e d J) as (p & e0 & P1 & P2 & P3). pose proof (f_equal snd (same_step (mkWorld cl None) e0 (e, d) (Cr d Q1) P3)) as Sm. cbn [fst snd] in Sm. rewrite <- Sm.
      apply (NP p e0 P1 P2). destruct P3 as [-> _]. exact Q1. }
    specialize (Q NP' k env c N1 Ab). congruence.
  Qed.

  (** ** After a panic *)
  Lemma run_fst_app l : forall w m, fst (run x js cs w (l ++ m)) = fst (run x js cs (fst (run x js cs w l)) m).
  Proof.
    induction l as [|[e c] l IH]; intros w m; [reflexivity|]. cbn [app run]. destruct (step w e c) as [w1 a]. specialize (IH w1 m).
    destruct (run x js cs w1 (l ++ m)) as [w2 rs]. destruct (run x js cs w1 l) as [w3 rs3]. cbn [fst snd] in *. exact IH.
  Qed.
  Lemma refused_when_poisoned w a en c : client_at w a en true -> about c = Some a -> c <> DestroyClient (Some a) -> refused w c.
  Proof.
    intros C A D. assert (Bc : bad_client w (Some a)) by (right; exists a, en; auto).
    destruct c; cbn in A |- *; try discriminate; subst; auto; congruence.
  Qed.
  Lemma shared_poison cl programs schedule a en po : let h := hrun (hstart cl programs) schedule in
    ~ In RUndefined (answers h) -> client_at (mkWorld cl None) a en po ->
    (forall p e, In p programs -> In e p -> snd e <> DestroyClient (Some a)) ->
    forall l1 i e l2, ho_log h = l1 ++ (i, e, RPanic) :: l2 -> about (snd e) = Some a ->
    forall j e' r, In (j, e', r) l2 -> about (snd e') = Some a -> r = RKo.
  Proof.
    intros h NU C ND l1 i [env c] l2 Lg Ab j [env' c'] r I Ab'. cbn [snd] in *.
    destruct (run_inv cl programs schedule _ (start_inv cl programs)) as (_ & _ & X). fold h in X. destruct (X NU) as (errs & A & _ & Al).
    destruct (one_by_one_run (returned h) cl (fun _ => None) (mkWorld cl None) eq_refl) as [_ R]. rewrite A in R. cbn [snd] in R.
    assert (ND' : forall e, ~ In (e, DestroyClient (Some a)) (map snd (returned h))).
    { intros e J. apply in_map_iff in J as ([k ed] & Q & J). cbn [snd] in Q. subst ed.
      destruct (returned_in cl programs schedule k _ J) as (p & e0 & P1 & P2 & [P3 _]). exact (ND p e0 P1 P2 P3). }
    apply in_split in I as (m1 & m2 & ->).
    set (before := l1 ++ (i, (env, c), RPanic) :: m1).
    assert (Lg' : ho_log h = before ++ (j, (env', c'), r) :: m2) by (unfold before; rewrite Lg, <- app_assoc; reflexivity).
    assert (Rt : map snd (returned h) = map snd (map fst before) ++ (env', c') :: map snd (map fst m2)) by (unfold returned; rewrite Lg', !map_app; reflexivity).
    assert (An : answers h = map snd before ++ r :: map snd m2) by (unfold answers; rewrite Lg', map_app; reflexivity).
    rewrite Rt in R, Al, ND'. rewrite An, run_app in R.
    apply app_eq_app_len in R as [R1 R2]; [|rewrite run_length, !map_length; reflexivity].
    assert (K := client_kept x js cs (map snd (map fst before)) (mkWorld cl None) a en po (allocator_prefix _ _ _ Al)
      (fun e J => ND' e (in_or_app _ _ _ (or_introl J))) C).
    destruct K as (p' & C' & Q). assert (p' = true) as ->.
    { apply Q. right. exists (length l1), env, c. rewrite R1. unfold before. rewrite !map_app. cbn [map fst snd].
      split; [rewrite nth_error_app2; rewrite !map_length; [rewrite Nat.sub_diag; reflexivity|lia]|]. split; [exact Ab|].
      rewrite nth_error_app2; rewrite map_length; [rewrite Nat.sub_diag; reflexivity|lia]. }
    cbn [run] in R2.
    assert (Rf : refused (fst (run x js cs (mkWorld cl None) (map snd (map fst before)))) c').
    { eapply refused_when_poisoned; [exact C'|exact Ab'|]. intros ->. apply (ND' env'). apply in_or_app. right. left. reflexivity. }
    destruct (refused_call x js cs _ env' c' Rf) as [Rk _].
    destruct (step (fst (run x js cs (mkWorld cl None) (map snd (map fst before)))) env' c') as [w1 r1]. cbn [snd] in Rk. subst r1.
    destruct (run x js cs w1 (map snd (map fst m2))) as [w2 rs]. cbn [snd] in R2. congruence.
  Qed.
End Share.
