(** Whole programs of the wrappers. *)
From Coq Require Import String List NArith ZArith Bool Arith Lia Permutation.
From Verif Require Import Base F32 M_Types M_Engine M_Filler M_Load S_Base S_Filler M_Ffi S_Ffi P_Base P_Encode P_Ffi
  M_Memory S_Memory P_Memory M_Wrap S_Wrap P_Wrap M_Python M_Kotlin M_Swift P_Python P_Kotlin P_Swift S_History.
Import ListNotations.
Local Open Scope nat_scope.

Lemma set_same g v o : set g v o v = o.
Proof. unfold set. rewrite Nat.eqb_refl. reflexivity. Qed.
Lemma set_other g v o w : w <> v -> set g v o w = g w.
Proof. intros N. unfold set. apply Nat.eqb_neq in N. rewrite N. reflexivity. Qed.
Lemma insert_same (v : nat) (p : cptr) l : hget Nat.eqb v (hinsert Nat.eqb v p l) = Some p.
Proof. apply hget_insert_eq. exact Nat.eqb_eq. Qed.
Lemma insert_other (v w : nat) (p : cptr) l : w <> v -> hget Nat.eqb w (hinsert Nat.eqb v p l) = hget Nat.eqb w l.
Proof. apply hget_insert_neq. exact Nat.eqb_eq. Qed.

(** The variables point to clients of their engines, and no two to the same. *)
Definition points (m : Memory) (vs : list (nat * cptr)) (g : engines) (v : nat) : Prop :=
  match hget Nat.eqb v vs with
  | None => g v = None
  | Some p => exists a en, p = Some a /\ client_at (mem_world m) a en false /\ g v = Some en
  end.
Definition apart (vs : list (nat * cptr)) : Prop :=
  forall v w a, hget Nat.eqb v vs = Some (Some a) -> hget Nat.eqb w vs = Some (Some a) -> v = w.
Definition sim (m : Memory) (vs : list (nat * cptr)) (g : engines) : Prop := (forall v, points m vs g v) /\ apart vs.

Lemma points_same m m1 vs g v : w_clients (mem_world m1) = w_clients (mem_world m) -> points m vs g v -> points m1 vs g v.
Proof. intros E. unfold points, client_at. rewrite E. auto. Qed.
Lemma sim_same m m1 vs g : w_clients (mem_world m1) = w_clients (mem_world m) -> sim m vs g -> sim m1 vs g.
Proof. intros E [P A]. split; [|exact A]. intros v. eapply points_same; eauto. Qed.
Lemma client_used_address m a en b : client_at (mem_world m) a en b -> In a (in_use m).
Proof.
  unfold client_at. intros H. apply hget_In in H; [|exact Nat.eqb_eq]. unfold in_use. apply in_or_app. left.
  apply in_map_iff. exists (a, mkClient en b). auto.
Qed.
Lemma sim_fresh m vs g a v : sim m vs g -> ~ In a (in_use m) -> hget Nat.eqb v vs <> Some (Some a).
Proof.
  intros [P _] N H. specialize (P v). unfold points in P. rewrite H in P. destruct P as (b & en & E & C & _). injection E as <-.
  apply N. eapply client_used_address. exact C.
Qed.
Lemma sim_created m m1 vs g a en : sim m vs g -> w_clients (mem_world m1) = (a, mkClient en false) :: w_clients (mem_world m) ->
  ~ In a (in_use m) -> sim m1 vs g /\ client_at (mem_world m1) a en false.
Proof.
  intros S E N. assert (Sf := fun v => sim_fresh m vs g a v S N). destruct S as [P A]. split.
  - split; [|exact A]. intros v. specialize (P v). specialize (Sf v). unfold points in *. destruct (hget Nat.eqb v vs) as [p|]; [|exact P].
    destruct P as (b & e & -> & C & G). exists b, e. split; [reflexivity|]. split; [|exact G]. unfold client_at in *. rewrite E. cbn [hget].
    destruct (Nat.eqb_spec b a) as [->|]; [exfalso; apply Sf; reflexivity|exact C].
  - unfold client_at. rewrite E. cbn [hget]. rewrite Nat.eqb_refl. reflexivity.
Qed.

Section Release.
  Context (x : Ext) (js : output -> outcome str) (cs : output -> outcome output) (msg : option error -> str).
  Lemma release e m a en p : client_at (mem_world m) a en p -> exists m1, ffi_ x js cs msg e (Call (DestroyClient (Some a))) m = (m1, Value tt) /\
    w_clients (mem_world m1) = without a (w_clients (mem_world m)).
  Proof.
    intros C. unfold client_at in C. unfold M_Wrap.ffi_, M_Wrap.ffi, mstep, mcall. cbn [step]. unfold pbind, destroy_client. rewrite C.
    eexists. split; [reflexivity|]. reflexivity.
  Qed.
End Release.
Lemma sim_dropped m m1 vs g v a : sim m vs g -> hget Nat.eqb v vs = Some (Some a) ->
  w_clients (mem_world m1) = without a (w_clients (mem_world m)) ->
  forall w, w <> v -> points m1 vs g w.
Proof.
  intros [P A] H E w N. specialize (P w). unfold points in *. destruct (hget Nat.eqb w vs) as [p|] eqn:G; [|exact P].
  destruct P as (b & en & -> & C & Gw). exists b, en. split; [reflexivity|]. split; [|exact Gw]. unfold client_at in *. rewrite E.
  rewrite without_get; [exact C|]. intros ->. apply N. exact (A w v a G H).
Qed.
Lemma sim_forget m vs g v : (forall w, w <> v -> points m vs g w) -> apart vs -> sim m (without v vs) (set g v None).
Proof.
  intros P A. split.
  - intros w. unfold points. destruct (Nat.eq_dec w v) as [->|N].
    + rewrite without_gone. apply set_same.
    + rewrite without_get by exact N. rewrite (set_other g v None w N). exact (P w N).
  - intros w w' a H H'.
    destruct (Nat.eq_dec w v) as [->|N]; [rewrite without_gone in H; discriminate|].
    destruct (Nat.eq_dec w' v) as [->|N']; [rewrite without_gone in H'; discriminate|].
    rewrite without_get in H by exact N. rewrite without_get in H' by exact N'. eapply A; eauto.
Qed.
Lemma sim_bind m vs g v a en : (forall w, w <> v -> points m vs g w) -> apart vs -> (forall w, hget Nat.eqb w vs <> Some (Some a)) ->
  client_at (mem_world m) a en false -> sim m (hinsert Nat.eqb v (Some a) vs) (set g v (Some en)).
Proof.
  intros P A F C. split.
  - intros w. unfold points. destruct (Nat.eq_dec w v) as [->|N].
    + rewrite insert_same. exists a, en. split; [reflexivity|]. split; [exact C|apply set_same].
    + rewrite insert_other by exact N. rewrite (set_other g v (Some en) w N). exact (P w N).
  - intros w w' b H H'.
    destruct (Nat.eq_dec w v) as [->|N]; destruct (Nat.eq_dec w' v) as [->|N']; auto.
    + rewrite insert_same in H. injection H as <-. rewrite insert_other in H' by exact N'. exfalso. exact (F w' H').
    + rewrite insert_same in H'. injection H' as <-. rewrite insert_other in H by exact N. exfalso. exact (F w H).
    + rewrite insert_other in H by exact N. rewrite insert_other in H' by exact N'. eapply A; eauto.
Qed.
Lemma sim_start : sim empty_memory [] no_engines.
Proof. split; [intros v; reflexivity|intros v w a H; discriminate]. Qed.

(** The answer of a question, in the words of [does]. *)
Definition lift {A} (r : ending A) : ending (option A) :=
  match r with Value a => Value (Some a) | Raised w => Raised w | Crashed => Crashed | Broken => Broken end.
Lemma lift_bind {A} (p : prog A) m m1 r : (let% a := p in ret (Some a)) m = (m1, r) -> exists r0, p m = (m1, r0) /\ r = lift r0.
Proof. unfold pbind, ret. destruct (p m) as [m0 [a|w| |]]; intros H; inv H; eexists; split; reflexivity. Qed.
Lemma json_does {R} js (out : R -> output) why g v en (q : Engine -> outcome R) m m1 r : g v = Some en ->
  passed_on why (let* a := q en in js (out a)) m m1 r ->
  does why g (Asks v (fun e => as_json js out (q e))) g (lift r) /\ (r <> Crashed -> w_clients (mem_world m1) = w_clients (mem_world m)).
Proof.
  intros G H. destruct (q en) as [a|e|] eqn:Q; cbn [bind] in H; [destruct (js (out a)) as [s|e|] eqn:J| |]; cbn [passed_on] in H.
  - destruct H as [-> [_ H]]. split; [|auto]. eapply answered; [exact G|]. unfold as_json. rewrite Q. cbn [bind]. rewrite J. reflexivity.
  - destruct H as [-> [_ H]]. split; [|auto]. eapply not_answered; [exact G|]. unfold as_json. rewrite Q. cbn [bind]. rewrite J. reflexivity.
  - subst r. split; [|congruence]. eapply question_crashed; [exact G|]. unfold as_json. rewrite Q. cbn [bind]. rewrite J. reflexivity.
  - destruct H as [-> [_ H]]. split; [|auto]. eapply not_answered; [exact G|]. unfold as_json. rewrite Q. reflexivity.
  - subst r. split; [|congruence]. eapply question_crashed; [exact G|]. unfold as_json. rewrite Q. reflexivity.
Qed.

(** ** Python *)
Section Python.
  Context (x : Ext) (js : output -> outcome str) (cs : output -> outcome output) (msg : option error -> str).
  Context (path : str -> str) (symbol : bool).
  Hypothesis no_zero : forall o s, js o = Ok s -> ~ In 0%N s.
  Hypothesis msg_no_zero : forall e, ~ In 0%N (msg e).
  Notation why := (python_message msg symbol).
  Notation py_step := (py_step x js cs msg path symbol).
  Notation py_run := (py_run x js cs msg path symbol).
  Definition py_sim (st : Py) (g : engines) : Prop := sim (py_memory st) (py_variables st) g.

  Lemma py_asked st g v ask st1 r (d : deed str) :
    py_sim st g -> py_ask st v ask = (st1, r) ->
    (forall a en m1 r0, hget Nat.eqb v (py_variables st) = Some (Some a) -> client_at (mem_world (py_memory st)) a en false -> g v = Some en ->
       ask (Some a) (py_memory st) = (m1, r0) ->
       does why g d g (lift r0) /\ (r0 <> Crashed -> w_clients (mem_world m1) = w_clients (mem_world (py_memory st)))) ->
    (g v = None -> does why g d g (Raised None)) ->
    does why g d g r /\ (r <> Crashed -> py_sim st1 g).
  Proof.
    intros S E K U. unfold py_ask in E. pose proof (proj1 S v) as P. unfold points in P.
    destruct (hget Nat.eqb v (py_variables st)) as [p|].
    - destruct P as (a & en & -> & C & G). destruct ((let% s := ask (Some a) in ret (Some s)) (py_memory st)) as [m1 r1] eqn:A. inv E.
      apply lift_bind in A as (r0 & A & ->). destruct (K a en m1 r0 eq_refl C G A) as [D H]. split; [exact D|].
      intros N. unfold py_sim. cbn [py_memory py_variables]. eapply sim_same; [|exact S]. apply H. intros ->. apply N. reflexivity.
    - inv E. split; [apply U; exact P|auto].
  Qed.
  Lemma py_created es st g v d b st1 r o : allocator es -> py_sim st g ->
    (forall m1 r, py_init x js cs msg path symbol es d b (py_memory st) = (m1, r) -> engine_made why o (py_memory st) m1 r) ->
    py_step st es (PyNew v d b) = (st1, r) ->
    exists g', does why g (@Creates str v o) g' r /\ (r <> Crashed -> py_sim st1 g').
  Proof.
    intros A S K E. cbn [M_Python.py_step] in E.
    destruct (py_init x js cs msg path symbol es d b (py_memory st)) as [m1 r1] eqn:I. specialize (K m1 r1 eq_refl).
    destruct o as [en|e|]; cbn [engine_made] in K.
    - destruct K as (a & -> & _ & Fa & W). rewrite (pbind_value _ _ _ _ _ I) in E. exists (set g v (Some en)).
      destruct (sim_created _ _ _ _ _ _ S W Fa) as [S1 C]. assert (Sf := fun w => sim_fresh _ _ _ _ w S Fa).
      destruct (hget Nat.eqb v (py_variables st)) as [old|] eqn:G.
      + pose proof (proj1 S1 v) as P. unfold points in P. rewrite G in P. destruct P as (b0 & e0 & -> & C0 & _).
        destruct (release x js cs msg (es 4) m1 b0 e0 false C0) as (m2 & R & W2).
        rewrite (pbind_value _ _ _ _ _ R) in E. cbn [ret] in E. inv E. split; [apply created|]. intros _.
        unfold py_sim. cbn [py_memory py_variables]. apply sim_bind; [eapply sim_dropped; eassumption|exact (proj2 S)|exact Sf|].
        unfold client_at in *. rewrite W2, without_get; [exact C|]. intros ->. exact (Sf v G).
      + rewrite (pbind_value _ _ _ m1 tt eq_refl) in E. cbn [ret] in E. inv E. split; [apply created|]. intros _.
        unfold py_sim. cbn [py_memory py_variables]. apply sim_bind; [intros w _; apply S1|exact (proj2 S)|exact Sf|exact C].
    - destruct K as [-> [_ W]]. rewrite (pbind_raised _ _ _ _ _ I) in E. inv E. exists g. split; [apply not_created|].
      intros _. eapply sim_same; [|exact S]. exact W.
    - subst r1. rewrite (pbind_crashed _ _ _ _ I) in E. inv E. exists g. split; [apply creation_crashed|congruence].
  Qed.

  Lemma encode_bad s m : ~ unicode s -> py_encode s m = (m, Raised None).
  Proof. intros U. unfold py_encode. destruct (forallb is_scalar s) eqn:E; [|reflexivity]. exfalso. apply U. apply scalar_unicode. exact E. Qed.
  Lemma pointer_bad {A} e (fill : prog (bool * cptr)) (use : bool -> cptr -> prog A) m : fill m = (m, Raised None) ->
    string_pointer x js cs msg e fill use m = (set_error m EOther, Raised None).
  Proof. intros H. unfold string_pointer. rewrite H. erewrite finally_raised; [reflexivity|reflexivity|apply destroy_nothing]. Qed.
  Lemma failed_does g m : does why g (@Fails str) g (@lift str (Raised None)) /\
    ((Raised None : ending str) <> Crashed -> w_clients (mem_world (set_error m EOther)) = w_clients (mem_world m)).
  Proof. split; [apply failed|reflexivity]. Qed.

  Lemma py_step_does st g es o d st1 r : py_sim st g -> py_means x js path es o d -> py_step st es o = (st1, r) ->
    exists g', does why g d g' r /\ (r <> Crashed -> py_sim st1 g').
  Proof.
    intros S M E. destruct M as [out v p p' b F U C|out v b F|v A|v p b A U|out v q q' wl wl' bl bl' ia sa F Uq Uw Ub Ni Ns Cq Cw Cb|v q wl bl ia sa A U
      |v q q' i i' sa A Uq Ui Ns Cq Ci|v q i sa A U|out v q q' F U C|v q A U|v A].
    - destruct F as [A F]. destruct (F 0 (py_memory st)) as (Fd & _). rewrite <- Fd. eapply py_created; eauto.
      intros m1 r1 I. eapply py_init_dir_ends; eauto.
    - destruct F as [A F]. destruct (F 0 (py_memory st)) as (_ & Fz & _). rewrite <- Fz. eapply py_created; eauto.
      intros m1 r1 I. eapply py_init_bytes_ends; eauto.
    - inv E. exists g. split; [apply failed|]. intros _. exact S.
    - exists g. assert (I : py_init x js cs msg path symbol es (Some p) b (py_memory st) = (set_error (py_memory st) EOther, Raised None)).
      { unfold py_init, on_raise. rewrite (pbind_raised _ _ _ _ _ (encode_bad _ _ U)). reflexivity. }
      cbn [M_Python.py_step] in E. rewrite (pbind_raised _ _ _ _ _ I) in E. inv E. split; [apply failed|].
      intros _. eapply sim_same; [|exact S]. reflexivity.
    - destruct F as [A F]. destruct (F 0 (py_memory st)) as (_ & _ & F1 & F2). exists g. cbn [M_Python.py_step] in E.
      eapply py_asked; [exact S|exact E| |intros G; apply nobody_asked; exact G].
      intros a en m1 r0 _ Ca G H. eapply py_parse_ends in H; eauto. rewrite F1, F2 in H.
      exact (json_does js OutParse why g v en (fun en => parse_with_alternatives x (out_ord1 out) (out_ord2 out) en q' wl' bl' (Z.to_nat ia) (Z.to_nat sa)) _ _ _ G H).
    - exists g. cbn [M_Python.py_step] in E. eapply py_asked; [exact S|exact E| |intros _; apply failed].
      intros a en m1 r0 _ _ _ H. unfold py_parse in H.
      destruct (py_list_cases wl (py_memory st)) as [(vw & Ew & _)|Ew]; [|rewrite (pbind_raised _ _ _ _ _ Ew) in H; inv H; split; [apply failed|reflexivity]].
      rewrite (pbind_value _ _ _ _ _ Ew) in H.
      destruct (py_list_cases bl (py_memory st)) as [(vb & Eb & _)|Eb]; [|rewrite (pbind_raised _ _ _ _ _ Eb) in H; inv H; split; [apply failed|reflexivity]].
      rewrite (pbind_value _ _ _ _ _ Eb), pointer_bad in H by (rewrite (pbind_raised _ _ _ _ _ (encode_bad _ _ U)); reflexivity). inv H. apply failed_does.
    - exists g. cbn [M_Python.py_step] in E.
      eapply py_asked; [exact S|exact E| |intros G; apply nobody_asked; exact G].
      intros a en m1 r0 _ Ca G H. eapply py_slots_ends in H; eauto.
      exact (json_does js OutSlots why g v en (fun en => get_slots_with_alternatives x en q' i' (Z.to_nat sa)) _ _ _ G H).
    - exists g. cbn [M_Python.py_step] in E. eapply py_asked; [exact S|exact E| |intros _; apply failed].
      intros a en m1 r0 _ _ _ H. unfold py_get_slots in H.
      rewrite pointer_bad in H by (rewrite (pbind_raised _ _ _ _ _ (encode_bad _ _ U)); reflexivity). inv H. apply failed_does.
    - destruct F as [A F]. destruct (F 0 (py_memory st)) as (_ & _ & F1 & _). exists g. cbn [M_Python.py_step] in E.
      eapply py_asked; [exact S|exact E| |intros G; apply nobody_asked; exact G].
      intros a en m1 r0 _ Ca G H. eapply py_intents_ends in H; eauto. rewrite F1 in H.
      exact (json_does js OutIntents why g v en (fun en => get_intents (out_ord1 out) en q') _ _ _ G H).
    - exists g. cbn [M_Python.py_step] in E. eapply py_asked; [exact S|exact E| |intros _; apply failed].
      intros a en m1 r0 _ _ _ H. unfold py_get_intents in H.
      rewrite pointer_bad in H by (rewrite (pbind_raised _ _ _ _ _ (encode_bad _ _ U)); reflexivity). inv H. apply failed_does.
    - cbn [M_Python.py_step] in E. pose proof (proj1 S v) as P. unfold points in P.
      destruct (hget Nat.eqb v (py_variables st)) as [p|] eqn:G.
      + destruct P as (a & en & -> & C & Gv). destruct (release x js cs msg (es 0) (py_memory st) a en false C) as (m2 & R & W).
        unfold py_del in E. rewrite (pbind_value _ _ _ _ _ R) in E. cbn [ret] in E. inv E. exists (set g v None).
        split; [eapply dropped; exact Gv|]. intros _. unfold py_sim. cbn [py_memory py_variables]. fold (without v (py_variables st)).
        apply sim_forget; [eapply sim_dropped; eassumption|exact (proj2 S)].
      + inv E. exists g. split; [apply nothing_dropped; exact P|auto].
  Qed.

  Lemma py_history_from l : forall n st g st1 rs, (forall es o, In (es, o) l -> exists d, py_means x js path es o d) ->
    py_sim st g -> py_run st l = (st1, rs) ->
    history (fun _ eo d => py_means x js path (fst eo) (snd eo) d) why n g l rs.
  Proof.
    induction l as [|[es o] l IH]; intros n st g st1 rs M S E; [inv E; constructor|].
    cbn [M_Python.py_run] in E. destruct (py_step st es o) as [st2 r] eqn:T.
    destruct (M es o (or_introl eq_refl)) as (d & D). destruct (py_step_does st g es o d st2 r S D T) as (g' & Do & S2).
    assert (M' : forall es o, In (es, o) l -> exists d, py_means x js path es o d) by (intros e p I; apply M; right; exact I).
    destruct r as [v|w| |].
    - destruct (py_run st2 l) as [st3 s] eqn:R. inv E. eapply history_step; [exact D|exact Do|discriminate|].
      eapply IH; [exact M'|apply S2; discriminate|exact R].
    - destruct (py_run st2 l) as [st3 s] eqn:R. inv E. eapply history_step; [exact D|exact Do|discriminate|].
      eapply IH; [exact M'|apply S2; discriminate|exact R].
    - inv E. eapply history_crash; [exact D|exact Do].
    - inversion Do.
  Qed.
  Lemma py_history l st rs : (forall es o, In (es, o) l -> exists d, py_means x js path es o d) ->
    py_run (mkPy empty_memory []) l = (st, rs) ->
    history (fun _ eo d => py_means x js path (fst eo) (snd eo) d) why 0 no_engines l rs.
  Proof. intros M E. eapply py_history_from; [exact M| |exact E]. exact sim_start. Qed.
End Python.

(** ** Swift *)
Lemma swift_does {R V} cs (view : output -> option V) (out : R -> output) (why : error -> str) g v en (q : Engine -> outcome R) m m1 r : g v = Some en ->
  converted_swift view why (let* a := q en in cs (out a)) m m1 r ->
  does (fun e => Some (why e)) g (Asks v (fun e => as_c cs view out (q e))) g (lift r) /\
  (r <> Crashed -> w_clients (mem_world m1) = w_clients (mem_world m)).
Proof.
  intros G H. destruct (q en) as [a|e|] eqn:Q; cbn [bind] in H; [destruct (cs (out a)) as [c|e|] eqn:J| |]; cbn [converted_swift] in H.
  - destruct H as [H [_ W]]. split; [|auto]. destruct (view c) as [w|] eqn:Vc; subst r.
    + eapply answered; [exact G|]. unfold as_c. rewrite Q. cbn [bind]. rewrite J. cbn [bind]. rewrite Vc. reflexivity.
    + eapply not_converted; [exact G|]. unfold as_c. rewrite Q. cbn [bind]. rewrite J. cbn [bind]. rewrite Vc. reflexivity.
  - destruct H as [-> [H _]]. split; [|auto]. apply (not_answered (fun e => Some (why e)) g v _ en e); [exact G|].
    unfold as_c. rewrite Q. cbn [bind]. rewrite J. reflexivity.
  - subst r. split; [|congruence]. eapply question_crashed; [exact G|]. unfold as_c. rewrite Q. cbn [bind]. rewrite J. reflexivity.
  - destruct H as [-> [H _]]. split; [|auto]. apply (not_answered (fun e => Some (why e)) g v _ en e); [exact G|]. unfold as_c. rewrite Q. reflexivity.
  - subst r. split; [|congruence]. eapply question_crashed; [exact G|]. unfold as_c. rewrite Q. reflexivity.
Qed.
Section Swift.
  Context (x : Ext) (js : output -> outcome str) (cs : output -> outcome output) (msg : option error -> str).
  Context {V : Type} (view : output -> option V).
  Hypothesis no_zero : forall o s, js o = Ok s -> ~ In 0%N s.
  Hypothesis msg_no_zero : forall e, ~ In 0%N (msg e).
  Notation why := (fun e => Some (msg (Some e))).
  Notation sw_step := (sw_step x js cs msg view).
  Notation sw_run := (sw_run x js cs msg view).
  Definition sw_sim (st : Sw) (g : engines) : Prop := sim (sw_memory st) (sw_variables st) g.

  Lemma sw_asked st g v ask st1 r (d : deed V) :
    sw_sim st g -> sw_about st v ask = (st1, r) ->
    (forall a en m1 r0, client_at (mem_world (sw_memory st)) a en false -> g v = Some en ->
       ask (Some a) (sw_memory st) = (m1, r0) ->
       does why g d g (lift r0) /\ (r0 <> Crashed -> w_clients (mem_world m1) = w_clients (mem_world (sw_memory st)))) ->
    (g v = None -> does why g d g (Raised None)) ->
    does why g d g r /\ (r <> Crashed -> sw_sim st1 g).
  Proof.
    intros S E K U. unfold sw_about in E. pose proof (proj1 S v) as P. unfold points in P.
    destruct (hget Nat.eqb v (sw_variables st)) as [p|].
    - destruct P as (a & en & -> & C & G). destruct ((let% s := ask (Some a) in ret (Some s)) (sw_memory st)) as [m1 r1] eqn:A. inv E.
      apply lift_bind in A as (r0 & A & ->). destruct (K a en m1 r0 C G A) as [D H]. split; [exact D|].
      intros N. unfold sw_sim. cbn [sw_memory sw_variables]. eapply sim_same; [|exact S]. apply H. intros ->. apply N. reflexivity.
    - inv E. split; [apply U; exact P|auto].
  Qed.
  Lemma sw_created_does es st g v new st1 r o : sw_sim st g ->
    (forall m1 r, new (sw_memory st) = (m1, r) -> engine_made_swift (fun e => msg (Some e)) o (sw_memory st) m1 r) ->
    sw_new x js cs msg st es v new = (st1, r) ->
    exists g', does why g (@Creates V v o) g' r /\ (r <> Crashed -> sw_sim st1 g').
  Proof.
    intros S K E. unfold sw_new in E.
    destruct (new (sw_memory st)) as [m1 r1] eqn:I. specialize (K m1 r1 eq_refl).
    destruct o as [en|e|]; cbn [engine_made_swift] in K.
    - destruct K as (a & -> & _ & Fa & W). rewrite (pbind_value _ _ _ _ _ I) in E. exists (set g v (Some en)).
      destruct (sim_created _ _ _ _ _ _ S W Fa) as [S1 C]. assert (Sf := fun w => sim_fresh _ _ _ _ w S Fa).
      destruct (hget Nat.eqb v (sw_variables st)) as [old|] eqn:G.
      + pose proof (proj1 S1 v) as P. unfold points in P. rewrite G in P. destruct P as (b0 & e0 & -> & C0 & _).
        destruct (release x js cs msg (es 3) m1 b0 e0 false C0) as (m2 & R & W2). cbn [sw_deinit] in E.
        rewrite (pbind_value _ _ _ _ _ R) in E. cbn [ret] in E. inv E. split; [apply created|]. intros _.
        unfold sw_sim. cbn [sw_memory sw_variables]. apply sim_bind; [eapply sim_dropped; eassumption|exact (proj2 S)|exact Sf|].
        unfold client_at in *. rewrite W2, without_get; [exact C|]. intros ->. exact (Sf v G).
      + rewrite (pbind_value _ _ _ m1 tt eq_refl) in E. cbn [ret] in E. inv E. split; [apply created|]. intros _.
        unfold sw_sim. cbn [sw_memory sw_variables]. apply sim_bind; [intros w _; apply S1|exact (proj2 S)|exact Sf|exact C].
    - destruct K as [-> [W _]]. rewrite (pbind_raised _ _ _ _ _ I) in E. inv E. exists g. split; [apply (not_created why g v e)|].
      intros _. eapply sim_same; [|exact S]. exact W.
    - subst r1. rewrite (pbind_crashed _ _ _ _ I) in E. inv E. exists g. split; [apply creation_crashed|congruence].
  Qed.
  Lemma sw_step_does st g es o d st1 r : sw_sim st g -> sw_means x cs view es o d -> sw_step st es o = (st1, r) ->
    exists g', does why g d g' r /\ (r <> Crashed -> sw_sim st1 g').
  Proof.
    intros S M E. destruct M as [out v p p' F U C|out v dt F Nd Ud|out v q q' wl wl' bl bl' ia sa F Uq Uw Ub Ni Ns Cq Cw Cb
      |v q q' i i' sa A Uq Ui Ns Cq Ci|out v q q' F U C|v A]; cbn [M_Swift.sw_step] in E.
    - destruct F as [A F]. destruct (F 0 (sw_memory st)) as (Fd & _). rewrite <- Fd. eapply sw_created_does; eauto.
      intros m1 r1 I. eapply sw_url_ends; eauto.
    - destruct F as [A F]. destruct (F 0 (sw_memory st)) as (_ & Fz & _). rewrite <- Fz. eapply sw_created_does; eauto.
      intros m1 r1 I. eapply sw_data_ends; eauto.
    - destruct F as [A F]. destruct (F 0 (sw_memory st)) as (_ & _ & F1 & F2). exists g.
      eapply sw_asked; [exact S|exact E| |intros G; apply nobody_asked; exact G].
      intros a en m1 r0 Ca G H. eapply sw_parse_ends in H; eauto. rewrite F1, F2 in H.
      exact (swift_does cs view OutParse (fun e => msg (Some e)) g v en (fun en => parse_with_alternatives x (out_ord1 out) (out_ord2 out) en q' wl' bl' (Z.to_nat ia) (Z.to_nat sa)) _ _ _ G H).
    - exists g. eapply sw_asked; [exact S|exact E| |intros G; apply nobody_asked; exact G].
      intros a en m1 r0 Ca G H. eapply sw_slots_ends in H; eauto.
      exact (swift_does cs view OutSlots (fun e => msg (Some e)) g v en (fun en => get_slots_with_alternatives x en q' i' (Z.to_nat sa)) _ _ _ G H).
    - destruct F as [A F]. destruct (F 0 (sw_memory st)) as (_ & _ & F1 & _). exists g.
      eapply sw_asked; [exact S|exact E| |intros G; apply nobody_asked; exact G].
      intros a en m1 r0 Ca G H. eapply sw_intents_ends in H; eauto. rewrite F1 in H.
      exact (swift_does cs view OutIntents (fun e => msg (Some e)) g v en (fun en => get_intents (out_ord1 out) en q') _ _ _ G H).
    - pose proof (proj1 S v) as P. unfold points in P.
      destruct (hget Nat.eqb v (sw_variables st)) as [p|] eqn:G.
      + destruct P as (a & en & -> & C & Gv). destruct (release x js cs msg (es 0) (sw_memory st) a en false C) as (m2 & R & W).
        cbn [sw_deinit] in E. rewrite (pbind_value _ _ _ _ _ R) in E. cbn [ret] in E. inv E. exists (set g v None).
        split; [eapply dropped; exact Gv|]. intros _. unfold sw_sim. cbn [sw_memory sw_variables]. fold (without v (sw_variables st)).
        apply sim_forget; [eapply sim_dropped; eassumption|exact (proj2 S)].
      + inv E. exists g. split; [apply nothing_dropped; exact P|auto].
  Qed.
  Lemma sw_history_from l : forall n st g st1 rs, (forall es o, In (es, o) l -> exists d, sw_means x cs view es o d) ->
    sw_sim st g -> sw_run st l = (st1, rs) ->
    history (fun _ eo d => sw_means x cs view (fst eo) (snd eo) d) why n g l rs.
  Proof.
    induction l as [|[es o] l IH]; intros n st g st1 rs M S E; [inv E; constructor|].
    cbn [M_Swift.sw_run] in E. destruct (sw_step st es o) as [st2 r] eqn:T.
    destruct (M es o (or_introl eq_refl)) as (d & D). destruct (sw_step_does st g es o d st2 r S D T) as (g' & Do & S2).
    assert (M' : forall es o, In (es, o) l -> exists d, sw_means x cs view es o d) by (intros e p I; apply M; right; exact I).
    destruct r as [v|w| |].
    - destruct (sw_run st2 l) as [st3 s] eqn:R. inv E. eapply history_step; [exact D|exact Do|discriminate|].
      eapply IH; [exact M'|apply S2; discriminate|exact R].
    - destruct (sw_run st2 l) as [st3 s] eqn:R. inv E. eapply history_step; [exact D|exact Do|discriminate|].
      eapply IH; [exact M'|apply S2; discriminate|exact R].
    - inv E. eapply history_crash; [exact D|exact Do].
    - inversion Do.
  Qed.
  Lemma sw_history l st rs : (forall es o, In (es, o) l -> exists d, sw_means x cs view es o d) ->
    sw_run (mkSw empty_memory []) l = (st, rs) ->
    history (fun _ eo d => sw_means x cs view (fst eo) (snd eo) d) why 0 no_engines l rs.
  Proof. intros M E. eapply sw_history_from; [exact M| |exact E]. exact sim_start. Qed.
End Swift.

(** ** Kotlin *)
Lemma kotlin_does {R V} js cs (view : output -> option V) (out : R -> output) k (why : error -> option str) g v en (q : Engine -> outcome R) (json : bool) m m1 r
    (ps : prog V) (pj : prog str) : g v = Some en ->
  (forall m1 r, ps m = (m1, r) -> converted view k why (let* a := q en in cs (out a)) m m1 r) ->
  (forall m1 r, pj m = (m1, r) -> passed_on why (let* a := q en in js (out a)) m m1 r) ->
  (if json then as_text pj else as_structure ps) m = (m1, r) ->
  does why g (Asks v (fun e => kt_given js cs view out json (q e))) g (kt_ending r) /\
  (r <> Crashed -> w_clients (mem_world m1) = w_clients (mem_world m)).
Proof.
  intros G Hs Hj E. destruct json.
  - unfold as_text, pbind in E. destruct (pj m) as [m2 r2] eqn:P. specialize (Hj m2 r2 eq_refl).
    destruct (q en) as [a|e|] eqn:Q; cbn [bind] in Hj; [destruct (js (out a)) as [s|e|] eqn:J| |]; cbn [passed_on] in Hj.
    + destruct Hj as [-> [_ W]]. inv E. split; [|auto]. eapply answered; [exact G|]. unfold kt_given, as_json. rewrite Q. cbn [bind]. rewrite J. reflexivity.
    + destruct Hj as [-> [_ W]]. inv E. split; [|auto]. eapply not_answered; [exact G|]. unfold kt_given, as_json. rewrite Q. cbn [bind]. rewrite J. reflexivity.
    + subst r2. inv E. split; [|congruence]. eapply question_crashed; [exact G|]. unfold kt_given, as_json. rewrite Q. cbn [bind]. rewrite J. reflexivity.
    + destruct Hj as [-> [_ W]]. inv E. split; [|auto]. eapply not_answered; [exact G|]. unfold kt_given, as_json. rewrite Q. reflexivity.
    + subst r2. inv E. split; [|congruence]. eapply question_crashed; [exact G|]. unfold kt_given, as_json. rewrite Q. reflexivity.
  - unfold as_structure, pbind in E. destruct (ps m) as [m2 r2] eqn:P. specialize (Hs m2 r2 eq_refl).
    destruct (q en) as [a|e|] eqn:Q; cbn [bind] in Hs; [destruct (cs (out a)) as [c|e|] eqn:J| |]; cbn [converted] in Hs.
    + destruct (view c) as [w|] eqn:Vc.
      * destruct Hs as [-> [_ W]]. inv E. split; [|auto]. eapply answered; [exact G|]. unfold kt_given, as_c. rewrite Q. cbn [bind]. rewrite J. cbn [bind]. rewrite Vc. reflexivity.
      * destruct Hs as [-> [W _]]. inv E. split; [|auto]. eapply not_converted; [exact G|]. unfold kt_given, as_c. rewrite Q. cbn [bind]. rewrite J. cbn [bind]. rewrite Vc. reflexivity.
    + destruct Hs as [-> [_ W]]. inv E. split; [|auto]. eapply not_answered; [exact G|]. unfold kt_given, as_c. rewrite Q. cbn [bind]. rewrite J. reflexivity.
    + subst r2. inv E. split; [|congruence]. eapply question_crashed; [exact G|]. unfold kt_given, as_c. rewrite Q. cbn [bind]. rewrite J. reflexivity.
    + destruct Hs as [-> [_ W]]. inv E. split; [|auto]. eapply not_answered; [exact G|]. unfold kt_given, as_c. rewrite Q. reflexivity.
    + subst r2. inv E. split; [|congruence]. eapply question_crashed; [exact G|]. unfold kt_given, as_c. rewrite Q. reflexivity.
Qed.
Section Kotlin.
  Context (x : Ext) (js : output -> outcome str) (cs : output -> outcome output) (msg : option error -> str).
  Context (path : str -> str) {V : Type} (view : output -> option V).
  Hypothesis no_zero : forall o s, js o = Ok s -> ~ In 0%N s.
  Hypothesis msg_no_zero : forall e, ~ In 0%N (msg e).
  Notation why := (fun e => Some (msg (Some e))).
  Notation kt_step := (kt_step x js cs msg path view).
  Notation kt_run := (kt_run x js cs msg path view).
  Notation kt_means := (kt_means x js cs path view).
  (** [C]: the engines that no operation is about any more. *)
  Definition kt_sim (C : list nat) (st : Kt) (g : engines) : Prop :=
    (forall v, ~ In v C -> points (kt_memory st) (kt_engines st) g v) /\
    (forall v w a, ~ In v C -> ~ In w C -> hget Nat.eqb v (kt_engines st) = Some (Some a) -> hget Nat.eqb w (kt_engines st) = Some (Some a) -> v = w).

  Lemma kt_same C st g m1 : w_clients (mem_world m1) = w_clients (mem_world (kt_memory st)) -> kt_sim C st g -> kt_sim C (mkKt m1 (kt_engines st)) g.
  Proof. intros W [P A]. split; [|exact A]. intros v N. cbn [kt_memory kt_engines]. eapply points_same; [exact W|]. apply P. exact N. Qed.
  Lemma kt_asked C st g v ask st1 r (d : deed (@kt_value V)) : kt_sim C st g -> ~ In v C -> kt_about st v ask = (st1, r) ->
    (forall a en m1 r0, client_at (mem_world (kt_memory st)) a en false -> g v = Some en ->
       ask (Some a) (kt_memory st) = (m1, r0) ->
       does why g d g (kt_ending r0) /\ (r0 <> Crashed -> w_clients (mem_world m1) = w_clients (mem_world (kt_memory st)))) ->
    (g v = None -> does why g d g (Raised None)) ->
    does why g d g (kt_ending r) /\ (r <> Crashed -> kt_sim C st1 g /\ List.length (kt_engines st1) = List.length (kt_engines st)).
  Proof.
    intros S N E K U. unfold kt_about in E. pose proof (proj1 S v N) as P. unfold points in P.
    destruct (hget Nat.eqb v (kt_engines st)) as [p|].
    - destruct P as (a & en & -> & C0 & G). unfold kt_plain in E. destruct (ask (Some a) (kt_memory st)) as [m1 r1] eqn:A. inv E.
      destruct (K a en m1 r C0 G A) as [D H]. split; [exact D|].
      intros N1. split; [|reflexivity]. apply kt_same; [|exact S]. apply H. exact N1.
    - inv E. split; [apply U; exact P|auto].
  Qed.
  Lemma kt_created_does C st g new st1 r o : kt_sim C st g ->
    (forall m1 r, new (kt_memory st) = (m1, r) -> engine_made why o (kt_memory st) m1 r) ->
    kt_new (V := V) st new = (st1, r) ->
    exists g', does why g (@Creates (@kt_value V) (List.length (kt_engines st)) o) g' (kt_ending r) /\
      (r <> Crashed -> kt_sim C st1 g' /\ List.length (kt_engines st1) = match o with Ok _ => Datatypes.S (List.length (kt_engines st)) | _ => List.length (kt_engines st) end).
  Proof.
    intros S K E. unfold kt_new in E. destruct (new (kt_memory st)) as [m1 r1] eqn:I. specialize (K m1 r1 eq_refl).
    destruct o as [en|e|]; cbn [engine_made] in K.
    - destruct K as (a & -> & _ & Fa & W). inv E. set (n := List.length (kt_engines st)). exists (set g n (Some en)). split; [apply created|].
      intros _. split; [|reflexivity].
      assert (Sf : forall v, ~ In v C -> hget Nat.eqb v (kt_engines st) <> Some (Some a)).
      { intros v N H. pose proof (proj1 S v N) as P. unfold points in P. rewrite H in P. destruct P as (b & e0 & E0 & C0 & _). injection E0 as <-.
        apply Fa. eapply client_used_address. exact C0. }
      split; cbn [kt_memory kt_engines].
      + intros v N. unfold points. cbn [hget]. fold n. destruct (Nat.eqb_spec v n) as [->|D].
        * exists a, en. split; [reflexivity|]. split; [|apply set_same]. unfold client_at. rewrite W. cbn [hget]. rewrite Nat.eqb_refl. reflexivity.
        * pose proof (proj1 S v N) as P. unfold points in P. specialize (Sf v N). rewrite set_other by exact D.
          destruct (hget Nat.eqb v (kt_engines st)) as [p|]; [|exact P]. destruct P as (b & e0 & -> & C0 & G0). exists b, e0.
          split; [reflexivity|]. split; [|exact G0]. unfold client_at in *. rewrite W. cbn [hget].
          destruct (Nat.eqb_spec b a) as [->|]; [exfalso; apply Sf; reflexivity|exact C0].
      + intros v w b Nv Nw. cbn [hget]. fold n. destruct (Nat.eqb_spec v n) as [->|Dv]; destruct (Nat.eqb_spec w n) as [->|Dw]; auto.
        * intros H H'. injection H as <-. exfalso. exact (Sf w Nw H').
        * intros H H'. injection H' as <-. exfalso. exact (Sf v Nv H).
        * apply (proj2 S); assumption.
    - destruct K as [-> [_ W]]. inv E. exists g. split; [apply (not_created why g _ e)|].
      intros _. split; [|reflexivity]. apply kt_same; assumption.
    - subst r1. inv E. exists g. split; [apply creation_crashed|congruence].
  Qed.

  Definition out_of_use (o : kt_op) : list nat := match o with KtClose v => [v] | _ => [] end.
  Definition next_number (n : nat) (d : deed (@kt_value V)) : nat := match d with Creates _ (Ok _) => S n | _ => n end.
  Lemma kt_step_does C st g es o d st1 r : kt_sim C st g -> (forall v, kt_engine o = Some v -> ~ In v C) ->
    kt_means (List.length (kt_engines st)) es o d -> kt_step st es o = (st1, r) ->
    exists g', does why g d g' (kt_ending r) /\
      (r <> Crashed -> kt_sim (out_of_use o ++ C) st1 g' /\ List.length (kt_engines st1) = next_number (List.length (kt_engines st)) d).
  Proof.
    intros S NC M E. destruct M as [A|out f f' F U Cf|out dt F|out v q q' wl wl' bl bl' ia ia' sa sa' json F Uq Uw Ub Nw Nb Ni Ns Cq Cw Cb
      |v q q' i i' sa sa' json A Uq Ui Ns Cq Ci|out v q q' json F U Cq|v A]; cbn [M_Kotlin.kt_step] in E; cbn [out_of_use app next_number].
    - exists g. unfold kt_plain, as_text, pbind in E. destruct (kt_model_version x js cs msg es (kt_memory st)) as [m1 r1] eqn:K.
      apply kt_version_ends in K; [|assumption|assumption]. destruct K as [-> [_ W]]. inv E. split; [apply told|].
      intros _. split; [|reflexivity]. apply kt_same; assumption.
    - destruct F as [A F]. destruct (F 0 (kt_memory st)) as (Fd & _). rewrite <- Fd.
      eapply kt_created_does; [exact S| |exact E]. intros m1 r1 I. eapply kt_file_ends; eauto.
    - destruct F as [A F]. destruct (F 0 (kt_memory st)) as (_ & Fz & _). rewrite <- Fz.
      eapply kt_created_does; [exact S| |exact E]. intros m1 r1 I. eapply kt_zip_ends; eauto.
    - destruct F as [A F]. destruct (F 0 (kt_memory st)) as (_ & _ & F1 & F2). exists g.
      eapply kt_asked; [exact S|apply NC; reflexivity|exact E| |intros G; apply nobody_asked; exact G].
      intros a en m1 r0 Ca G H.
      pose proof (kt_parse_ends x js cs msg view no_zero msg_no_zero es A (kt_memory st) a en q q' wl wl' bl bl' ia ia' sa sa') as K.
      apply (kotlin_does js cs view OutParse KResult why g v en (fun en => parse_with_alternatives x (out_ord1 out) (out_ord2 out) en q' wl' bl' ia' sa') json _ _ _ _ _ G) in H; [exact H| |].
      + intros m2 r2 I. rewrite <- F1, <- F2. eapply K; eauto.
      + intros m2 r2 I. rewrite <- F1, <- F2. eapply K; eauto.
    - exists g. eapply kt_asked; [exact S|apply NC; reflexivity|exact E| |intros G; apply nobody_asked; exact G].
      intros a en m1 r0 Ca G H.
      pose proof (kt_slots_ends x js cs msg view no_zero msg_no_zero es A (kt_memory st) a en q q' i i' sa sa') as K.
      apply (kotlin_does js cs view OutSlots KSlots why g v en (fun en => get_slots_with_alternatives x en q' i' sa') json _ _ _ _ _ G) in H; [exact H| |].
      + intros m2 r2 I. eapply K; eauto.
      + intros m2 r2 I. eapply K; eauto.
    - destruct F as [A F]. destruct (F 0 (kt_memory st)) as (_ & _ & F1 & F2). exists g.
      eapply kt_asked; [exact S|apply NC; reflexivity|exact E| |intros G; apply nobody_asked; exact G].
      intros a en m1 r0 Ca G H.
      pose proof (kt_intents_ends x js cs msg view no_zero msg_no_zero es A (kt_memory st) a en q q') as K.
      apply (kotlin_does js cs view OutIntents KIntents why g v en (fun en => get_intents (out_ord1 out) en q') json _ _ _ _ _ G) in H; [exact H| |].
      + intros m2 r2 I. rewrite <- F1. eapply K; eauto.
      + intros m2 r2 I. rewrite <- F1. eapply K; eauto.
    - unfold kt_about in E. pose proof (NC v eq_refl) as Nv. pose proof (proj1 S v Nv) as P. unfold points in P.
      destruct (hget Nat.eqb v (kt_engines st)) as [p|] eqn:G.
      + destruct P as (a & en & -> & C0 & Gv). destruct (release x js cs msg (es 0) (kt_memory st) a en false C0) as (m2 & R & W).
        unfold kt_plain, kt_close in E. rewrite (pbind_value _ _ _ _ _ R) in E. cbn [ret] in E. inv E. exists (set g v None).
        split; [eapply dropped; exact Gv|]. intros _. split; [|reflexivity]. split; cbn [kt_memory kt_engines].
        * intros w N. assert (D : w <> v) by (intros ->; apply N; left; reflexivity).
          assert (Nw : ~ In w C) by (intros I; apply N; right; exact I).
          pose proof (proj1 S w Nw) as P. unfold points in *. rewrite set_other by exact D.
          destruct (hget Nat.eqb w (kt_engines st)) as [p|] eqn:Gw; [|exact P]. destruct P as (b & e0 & -> & C1 & G1). exists b, e0.
          split; [reflexivity|]. split; [|exact G1]. unfold client_at in *. rewrite W, without_get; [exact C1|].
          intros ->. apply D. exact (proj2 S w v a Nw Nv Gw G).
        * intros w w' b N N'. apply (proj2 S); intros I; [apply N|apply N']; right; exact I.
      + inv E. exists g. split; [apply nothing_dropped; exact P|]. intros _. split; [|reflexivity]. split.
        * intros w N. apply S. intros I. apply N. right. exact I.
        * intros w w' b N N'. apply (proj2 S); intros I; [apply N|apply N']; right; exact I.
  Qed.
  Lemma kt_means_any n n' es o d : kt_means n es o d -> exists d', kt_means n' es o d'.
  Proof. intros M. destruct M; eexists; econstructor; eassumption. Qed.

  Lemma kt_history_from l : forall C st g st1 rs, (forall es o, In (es, o) l -> exists n d, kt_means n es o d) -> no_use_after_close l ->
    (forall es o n, In (es, o) l -> kt_engine o = Some n -> ~ In n C) -> kt_sim C st g -> kt_run st l = (st1, rs) ->
    history (fun n eo d => kt_means n (fst eo) (snd eo) d) why (List.length (kt_engines st)) g l (map kt_ending rs).
  Proof.
    induction l as [|[es o] l IH]; intros C st g st1 rs M U NC S E; [inv E; constructor|].
    cbn [M_Kotlin.kt_run] in E. destruct (kt_step st es o) as [st2 r] eqn:T.
    destruct (M es o (or_introl eq_refl)) as (n0 & d0 & D0). destruct (kt_means_any _ (List.length (kt_engines st)) _ _ _ D0) as (d & D).
    destruct (kt_step_does C st g es o d st2 r S (fun n H => NC es o n (or_introl eq_refl) H) D T) as (g' & Do & S2).
    assert (Rest : forall s st3, kt_run st2 l = (st3, s) -> r <> Crashed ->
      history (fun n eo d => kt_means n (fst eo) (snd eo) d) why (next_number (List.length (kt_engines st)) d) g' l (map kt_ending s)).
    { intros s st3 R Nr. destruct (S2 Nr) as [S3 L]. rewrite <- L. eapply IH; [| | |exact S3|exact R].
      - intros e p I. apply M. right. exact I.
      - intros l1 e p l2 n e1 H Hn I. subst l. apply (U ((es, o) :: l1) e p l2 n e1 eq_refl Hn). right. exact I.
      - intros e p n I Hn J. apply in_app_iff in J as [J|J]; [|eapply NC; [right; exact I|exact Hn|exact J]].
        destruct o as [| | | | | |v0]; cbn [out_of_use In] in J; try contradiction. destruct J as [<-|[]].
        apply in_split in I as (l1 & l2 & ->). apply (U ((es, KtClose v0) :: l1) e p l2 v0 es eq_refl Hn). left. reflexivity. }
    destruct r as [v|w| |].
    - destruct (kt_run st2 l) as [st3 s] eqn:R. inv E. cbn [map]. eapply history_step; [exact D|exact Do|destruct v; discriminate|].
      apply (Rest s st1 eq_refl). discriminate.
    - destruct (kt_run st2 l) as [st3 s] eqn:R. inv E. cbn [map]. eapply history_step; [exact D|exact Do|discriminate|].
      apply (Rest s st1 eq_refl). discriminate.
    - inv E. cbn [map]. eapply history_crash; [exact D|exact Do].
    - inversion Do.
  Qed.
  Lemma kt_history l st rs : (forall es o, In (es, o) l -> exists n d, kt_means n es o d) -> no_use_after_close l ->
    kt_run (mkKt empty_memory []) l = (st, rs) ->
    history (fun n eo d => kt_means n (fst eo) (snd eo) d) why 0 no_engines l (map kt_ending rs).
  Proof.
    intros M U E. change 0 with (List.length (kt_engines (mkKt empty_memory []))). eapply (kt_history_from l []); [exact M|exact U|intros ? ? ? ? ? []| |exact E].
    split; [intros v _; reflexivity|intros v w a _ _ H; discriminate].
  Qed.
End Kotlin.
