(** Hosts that use the C interface do not crash. *)
From Coq Require Import String List NArith ZArith Bool Arith Lia.
From Verif Require Import Base F32 M_Types M_Engine M_Prob M_Filler M_Features M_Fs M_Json M_Load M_Inject M_Zip M_Ffi S_Base S_Load S_Inject S_Zip S_Ffi S_Safe S_Host
  P_Base P_Pack P_Ffi P_Safe P_SafeLoad.
Import ListNotations.
Local Open Scope nat_scope.

Section Host.
  Context (x : Ext) (shape : str -> str) (ngrams : list str -> nat -> list str) (mx : Math) (L : Loader)
          (js : output -> outcome str) (cs : output -> outcome output).
  Notation step := (step x js cs).
  Notation run := (run x js cs).
  Notation sound_history := (sound_history x shape ngrams mx L js cs).
  Notation from_sound_files := (from_sound_files x shape ngrams mx L).

  (** The calls on engines loaded from sound files. *)
  Definition good (en : Engine) : Prop := from_sound_files (Ok en).
  Lemma good_safe en s : good en -> texts_below_limit x (en_resources en) s ->
    (forall o1 o2 w b n m, parse_with_alternatives x o1 o2 en s w b n m <> Panic) /\
    (forall o, get_intents o en s <> Panic) /\
    (forall i m, get_slots_with_alternatives x en s i m <> Panic).
  Proof.
    intros [(e & H)|(fo & uo & f & p & Ex & _ & _ & Fi & E)] Lim; [discriminate|].
    destruct (loaded_never_panics x shape ngrams mx L fo uo f Ex Fi p en s (eq_sym E) Lim) as (A & B & C & _). auto.
  Qed.
  Lemma source_calm o : from_sound_files o -> o <> Panic.
  Proof.
    intros [(e & ->)|(fo & uo & f & p & _ & Ca & Cr & _ & ->)]; [discriminate|]. apply loading_never_panics; assumption.
  Qed.

  (** Worlds whose clients are engines of the history, not poisoned. *)
  Definition healthy (l : list (Env * call)) (w : World) : Prop :=
    forall a c, In (a, c) (w_clients w) -> cl_poisoned c = false /\ good (cl_engine c) /\ can_load l (cl_engine c).
  Definition fine (l : list (Env * call)) (wr : World * reply) : Prop := healthy l (fst wr) /\ snd wr <> RPanic.

  Lemma wrap_fine l w r : healthy l w -> r <> Some Panic -> fine l (wrap w r).
  Proof. intros H N. destruct r as [[o|e|]|]; split; cbn; auto; discriminate || congruence. Qed.
  Lemma first_fine {A} l w (m : act A) k : healthy l w -> m <> Some Panic -> (forall a, m = Some (Ok a) -> fine l (k a)) -> fine l (first w m k).
  Proof. intros H N K. destruct m as [[a|e|]|]; cbn [first]; auto; apply wrap_fine; auto; discriminate. Qed.
  Lemma locked_fine l w p k : healthy l w ->
    (forall en, good en -> can_load l en -> k en <> Some Panic) -> fine l (locked w (get_client w p) k).
  Proof.
    intros H K. unfold get_client. destruct p as [a|]; [|apply wrap_fine; auto; discriminate].
    destruct (hget Nat.eqb a (w_clients w)) as [c|] eqn:E; [|apply wrap_fine; auto; discriminate].
    apply hget_In in E; [|exact Nat.eqb_eq]. destruct (H a c E) as (-> & G & Cl). cbn [locked].
    specialize (K _ G Cl). destruct (k (cl_engine c)) as [[o|e|]|]; try congruence; apply wrap_fine; auto; discriminate.
  Qed.
  Lemma rust_calm c : rust_string c <> Some Panic.
  Proof. destruct c as [|b]; [discriminate|]. cbn. destruct (utf8_decode b); discriminate. Qed.
  Lemma rust_text c s : rust_string c = Some (Ok s) -> text c s.
  Proof.
    destruct c as [|b]; [discriminate|]. cbn. destruct (utf8_decode b) as [t|] eqn:E; [|discriminate]. intros H. injection H as ->.
    apply utf8_iff in E as [U ->]. split; auto.
  Qed.
  Lemma elements_calm l : elements l <> Some Panic.
  Proof.
    induction l as [|c l IH]; [discriminate|]. cbn [elements]. destruct c as [|b]; [discriminate|]. cbn [element].
    destruct (utf8_decode b); cbn [ok_or abind]; [|discriminate].
    destruct (elements l) as [[m|e|]|]; cbn [abind]; try discriminate. congruence.
  Qed.
  Lemma strings_calm l : rust_strings l <> Some Panic.
  Proof.
    destruct l as [| |l]; [discriminate|discriminate|]. cbn [rust_strings]. pose proof (elements_calm l) as E.
    destruct (elements l) as [[m|e|]|]; cbn [abind]; try discriminate. congruence.
  Qed.
  Lemma give_calm b o : js o <> Panic -> cs o <> Panic -> give js cs b o <> Panic.
  Proof.
    intros J C. destruct b; cbn [give]; [|exact C]. destruct (js o) as [s|e|]; cbn [bind]; try discriminate; [|congruence].
    unfold point_to_string. destruct (existsb _ _); discriminate.
  Qed.
  Lemma act_calm {A B} (m : act A) (k : A -> act B) : m <> Some Panic -> (forall a, m = Some (Ok a) -> k a <> Some Panic) -> abind m k <> Some Panic.
  Proof. intros N K. destruct m as [[a|e|]|]; cbn [abind]; auto; discriminate. Qed.
  Lemma some_calm {A} (o : outcome A) : o <> Panic -> Some o <> Some Panic.
  Proof. congruence. Qed.

  Lemma create_fine l w e c m : healthy l w -> In (e, c) l -> m <> Some Panic ->
    (forall en, m = Some (Ok en) -> good en /\ ((exists s, env_dir e s = Ok en) \/ exists zip, env_zip e zip = Ok en)) ->
    fine l (new_client w e m).
  Proof.
    intros H I N G. unfold new_client. apply first_fine; auto. intros en E. destruct (G en E) as [Ge Ld].
    split; [|discriminate]. cbn [fst w_clients]. intros a cl [Q|Q]; [|exact (H a cl Q)]. injection Q as _ <-. cbn [cl_poisoned cl_engine].
    split; [reflexivity|]. split; [exact Ge|]. exists e, c. auto.
  Qed.

  Lemma step_fine l w e c : sound_history l -> In (e, c) l -> healthy l w -> fine l (step w e c).
  Proof.
    intros Hs I H. destruct (Hs e c I) as [[Ed Ez] Hc].
    assert (P : forall i, input_of c = Some i -> forall p wl bl ia sa b, fine l (run_parse x js cs w e p i wl bl ia sa b)).
    { intros i Ei p wl bl ia sa b. unfold run_parse. apply first_fine; [exact H|apply rust_calm|]. intros s Es. apply rust_text in Es.
      apply locked_fine; [exact H|]. intros en G Cl. destruct (Hc i s en Ei Es Cl) as [Lim An].
      destruct (good_safe en s G Lim) as (A & _ & _).
      apply act_calm; [apply strings_calm|intros w' _]. apply act_calm; [apply strings_calm|intros b' _].
      apply act_calm; [apply some_calm, A|]. intros r Er. injection Er as Er. apply some_calm.
      destruct (An _ (answer_parse x en s _ _ _ _ _ _ _ Er)) as [J C]. apply give_calm; assumption. }
    assert (S : forall i, input_of c = Some i -> forall p n sa b, fine l (run_get_slots x js cs w p i n sa b)).
    { intros i Ei p n sa b. unfold run_get_slots. apply first_fine; [exact H|apply rust_calm|]. intros s Es. apply rust_text in Es.
      apply first_fine; [exact H|apply rust_calm|]. intros nm _.
      apply locked_fine; [exact H|]. intros en G Cl. destruct (Hc i s en Ei Es Cl) as [Lim An].
      destruct (good_safe en s G Lim) as (_ & _ & A).
      apply act_calm; [apply some_calm, A|]. intros r Er. injection Er as Er. apply some_calm.
      destruct (An _ (answer_slots x en s _ _ _ Er)) as [J C]. apply give_calm; assumption. }
    destruct c as [root|zip|p i wl bl b|p i wl bl ia sa b|p i n b|p i n sa b|p i b|p|]; cbn [M_Ffi.step].
    - apply (create_fine l w e _ _ H I).
      + apply act_calm; [apply rust_calm|]. intros s _. apply some_calm, source_calm, Ed.
      + intros en E. destruct (rust_string root) as [[s|er|]|]; try discriminate. cbn [abind] in E. injection E as E.
        split; [|left; exists s; exact E]. unfold good. rewrite <- E. apply Ed.
    - apply (create_fine l w e _ _ H I).
      + destruct zip as [z|]; [|discriminate]. apply some_calm, source_calm, Ez.
      + intros en E. destruct zip as [z|]; [|discriminate]. injection E as E. split; [|right; exists z; exact E]. unfold good. rewrite <- E. apply Ez.
    - apply P. reflexivity.
    - apply P. reflexivity.
    - apply S. reflexivity.
    - apply S. reflexivity.
    - unfold run_get_intents. apply first_fine; [exact H|apply rust_calm|]. intros s Es. apply rust_text in Es.
      apply locked_fine; [exact H|]. intros en G Cl. destruct (Hc i s en eq_refl Es Cl) as [Lim An].
      destruct (good_safe en s G Lim) as (_ & A & _).
      apply act_calm; [apply some_calm, A|]. intros r Er. injection Er as Er. apply some_calm.
      destruct (An _ (answer_intents x en s _ _ Er)) as [J C]. apply give_calm; assumption.
    - unfold destroy_client. destruct p as [a|]; [|apply wrap_fine; auto; discriminate].
      destruct (hget Nat.eqb a (w_clients w)); [|apply wrap_fine; auto; discriminate].
      split; [|discriminate]. cbn [fst w_clients]. intros a' c' Hin. apply filter_In in Hin as [Hin _]. exact (H a' c' Hin).
    - apply wrap_fine; [exact H|discriminate].
  Qed.

  Lemma host_never_crashes l : sound_history l ->
    ~ In RPanic (snd (run no_client l)) /\
    forall a en p, client_at (fst (run no_client l)) a en p -> p = false.
  Proof.
    intros Hs.
    assert (G : forall r w, incl r l -> healthy l w -> healthy l (fst (run w r)) /\ ~ In RPanic (snd (run w r))).
    { induction r as [|[e c] r IH]; intros w Hi H; [split; auto|]. cbn [M_Ffi.run].
      pose proof (step_fine l w e c Hs (Hi _ (or_introl eq_refl)) H) as [H1 N].
      destruct (step w e c) as [w1 a]. cbn [fst snd] in *.
      destruct (IH w1 (fun q Hq => Hi q (or_intror Hq)) H1) as [H2 N2]. destruct (run w1 r) as [w2 rs]. cbn [fst snd] in *.
      split; [exact H2|]. intros [E|E]; [exact (N E)|exact (N2 E)]. }
    destruct (G l no_client (incl_refl l)) as [H N]; [intros a c []|]. split; [exact N|].
    intros a en p Ha. unfold client_at in Ha. apply hget_In in Ha; [|exact Nat.eqb_eq]. exact (proj1 (H a _ Ha)).
  Qed.
End Host.

(** An archive of a sound directory. *)
Lemma archive_sound io : (forall o, io o = true) ->
  forall x shape ngrams mx L fo fo' uo uo' f T n g p l,
  T <> [] -> directory f (removelast T) -> tree_like f -> (forall r, f (T ++ r) = None) ->
  tree_like g -> g (resolve p) = Some Dir -> packs n g (resolve p) l ->
  loaders_relative L ->
  (forall c, fo (p ++ map CName c) = fo' (map CName (T ++ n :: c))) ->
  (forall c, uo (p ++ map CName c) = uo' (map CName (T ++ n :: c))) ->
  (forall names j s, json_at L g (p ++ map CName names) j -> text_in s j -> plain s) ->
  (forall l, plain (ld_lang_name L l)) ->
  externals_behave x mx L g -> loaders_calm L g -> crash_free_files L g -> sound_files L fo g ->
  from_sound_files x shape ngrams mx L (from_zip io x shape ngrams mx L fo' uo' f (Some (map CName T)) (Some l)).
Proof.
  intros Hio x shape ngrams mx L fo fo' uo uo' f T n g p l NT Dp Tf Nf Tg Gd Pk Lr Ofo Ouo Tx Lg Eb Lc Cf Sf.
  right. exists fo, uo, g, p. split; [exact Eb|]. split; [exact Lc|]. split; [exact Cf|]. split; [exact Sf|].
  eapply from_zip_packed; eauto.
Qed.
