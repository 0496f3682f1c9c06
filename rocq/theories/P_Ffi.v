(** Lemmas about the C interface. *)
From Coq Require Import String List NArith ZArith Bool Arith Lia.
From Verif Require Import Base F32 M_Types M_Engine M_Filler M_Load S_Base S_Filler M_Ffi S_Ffi P_Base P_Encode.
Import ListNotations.
Local Open Scope nat_scope.

(** ** UTF-8 *)
Section Utf8.
  Local Open Scope N_scope.
  Lemma enc_cons c s : utf8_encode (c :: s) = utf8_char c ++ utf8_encode s.
  Proof. reflexivity. Qed.
  Lemma utf8_unique_n n : forall b s, (length b <= n)%nat -> utf8_decode b = Some s -> unicode s /\ b = utf8_encode s.
  Proof.
    assert (Cons : forall c s, scalar c -> unicode s -> unicode (c :: s)).
    { intros c s H U d [<-|I]; auto. }
    induction n as [|n IH]; intros b s L H.
    - destruct b; [|simpl in L; lia]. inv H. split; [intros c []|reflexivity].
    - destruct b as [|b0 r0]; [inv H; split; [intros c []|reflexivity]|]. simpl in L. cbn [utf8_decode] in H.
      destruct (b0 <? 128) eqn:E0.
      { destruct (utf8_decode r0) as [s'|] eqn:D; [|discriminate]. inv H.
        destruct (IH r0 s') as [U ->]; [lia|exact D|]. apply N.ltb_lt in E0. split.
        - apply Cons; auto. apply is_scalar_spec. unfold is_scalar. apply orb_true_iff. left. apply N.ltb_lt. lia.
        - rewrite enc_cons. unfold utf8_char. rewrite (proj2 (N.ltb_lt _ _) E0). reflexivity. }
      apply N.ltb_ge in E0. destruct r0 as [|b1 r1]; [discriminate|].
      destruct (is_cont b1) eqn:C1; cbn [negb] in H; [|discriminate]. unfold is_cont in C1. apply andb_prop in C1 as [C1 C1'].
      apply N.leb_le in C1. apply N.ltb_lt in C1'.
      destruct ((192 <=? b0) && (b0 <? 224)) eqn:E1.
      { apply andb_prop in E1 as [E1 E1']. apply N.leb_le in E1. apply N.ltb_lt in E1'. cbv zeta in H.
        set (c := (b0 - 192) * 64 + (b1 - 128)) in *.
        destruct (128 <=? c) eqn:G; [|discriminate]. apply N.leb_le in G.
        destruct (utf8_decode r1) as [s'|] eqn:D; [|discriminate]. inv H.
        destruct (IH r1 s') as [U ->]; [simpl in L; lia|exact D|]. split.
        - apply Cons; auto. apply is_scalar_spec. unfold is_scalar. apply orb_true_iff. left. apply N.ltb_lt. unfold c. lia.
        - rewrite enc_cons. unfold utf8_char. fold c.
          rewrite (proj2 (N.ltb_ge c 128)) by exact G. rewrite (proj2 (N.ltb_lt c 2048)) by (unfold c; lia).
          rewrite (div_eq c 64 (b0 - 192) (b1 - 128)) by (unfold c; lia).
          rewrite (mod_eq c 64 (b0 - 192) (b1 - 128)) by (unfold c; lia).
          replace (192 + (b0 - 192)) with b0 by lia. replace (128 + (b1 - 128)) with b1 by lia. reflexivity. }
      destruct r1 as [|b2 r2]; [discriminate|].
      destruct (is_cont b2) eqn:C2; cbn [negb] in H; [|discriminate]. unfold is_cont in C2. apply andb_prop in C2 as [C2 C2'].
      apply N.leb_le in C2. apply N.ltb_lt in C2'.
      destruct ((224 <=? b0) && (b0 <? 240)) eqn:E2.
      { apply andb_prop in E2 as [E2 E2']. apply N.leb_le in E2. apply N.ltb_lt in E2'. cbv zeta in H.
        set (c := (b0 - 224) * 4096 + (b1 - 128) * 64 + (b2 - 128)) in *.
        destruct (2048 <=? c) eqn:G; [|discriminate]. cbn [andb] in H. apply N.leb_le in G.
        destruct (is_scalar c) eqn:Sc; [|discriminate].
        destruct (utf8_decode r2) as [s'|] eqn:D; [|discriminate]. inv H.
        destruct (IH r2 s') as [U ->]; [simpl in L; lia|exact D|]. split.
        - apply Cons; auto. apply is_scalar_spec. exact Sc.
        - rewrite enc_cons. unfold utf8_char. fold c.
          rewrite (proj2 (N.ltb_ge c 128)) by lia. rewrite (proj2 (N.ltb_ge c 2048)) by exact G.
          rewrite (proj2 (N.ltb_lt c 65536)) by (unfold c; lia).
          rewrite (div_eq c 4096 (b0 - 224) ((b1 - 128) * 64 + (b2 - 128))) by (unfold c; lia).
          rewrite (div_eq c 64 ((b0 - 224) * 64 + (b1 - 128)) (b2 - 128)) by (unfold c; lia).
          rewrite (mod_eq ((b0 - 224) * 64 + (b1 - 128)) 64 (b0 - 224) (b1 - 128)) by lia.
          rewrite (mod_eq c 64 ((b0 - 224) * 64 + (b1 - 128)) (b2 - 128)) by (unfold c; lia).
          replace (224 + (b0 - 224)) with b0 by lia. replace (128 + (b1 - 128)) with b1 by lia.
          replace (128 + (b2 - 128)) with b2 by lia. reflexivity. }
      destruct r2 as [|b3 r3]; [discriminate|].
      destruct (is_cont b3) eqn:C3; cbn [negb] in H; [|discriminate]. unfold is_cont in C3. apply andb_prop in C3 as [C3 C3'].
      apply N.leb_le in C3. apply N.ltb_lt in C3'.
      destruct (240 <=? b0) eqn:E3; [|discriminate]. apply N.leb_le in E3. cbv zeta in H.
      set (c := (b0 - 240) * 262144 + (b1 - 128) * 4096 + (b2 - 128) * 64 + (b3 - 128)) in *.
      destruct (65536 <=? c) eqn:G; [|discriminate]. cbn [andb] in H. apply N.leb_le in G.
      destruct (is_scalar c) eqn:Sc; [|discriminate].
      destruct (utf8_decode r3) as [s'|] eqn:D; [|discriminate]. inv H.
      destruct (IH r3 s') as [U ->]; [simpl in L; lia|exact D|]. split.
      + apply Cons; auto. apply is_scalar_spec. exact Sc.
      + rewrite enc_cons. unfold utf8_char. fold c.
        rewrite (proj2 (N.ltb_ge c 128)) by lia. rewrite (proj2 (N.ltb_ge c 2048)) by lia.
        rewrite (proj2 (N.ltb_ge c 65536)) by exact G.
        rewrite (div_eq c 262144 (b0 - 240) ((b1 - 128) * 4096 + (b2 - 128) * 64 + (b3 - 128))) by (unfold c; lia).
        rewrite (div_eq c 4096 ((b0 - 240) * 64 + (b1 - 128)) ((b2 - 128) * 64 + (b3 - 128))) by (unfold c; lia).
        rewrite (div_eq c 64 ((b0 - 240) * 4096 + (b1 - 128) * 64 + (b2 - 128)) (b3 - 128)) by (unfold c; lia).
        rewrite (mod_eq ((b0 - 240) * 64 + (b1 - 128)) 64 (b0 - 240) (b1 - 128)) by lia.
        rewrite (mod_eq ((b0 - 240) * 4096 + (b1 - 128) * 64 + (b2 - 128)) 64 ((b0 - 240) * 64 + (b1 - 128)) (b2 - 128)) by lia.
        rewrite (mod_eq c 64 ((b0 - 240) * 4096 + (b1 - 128) * 64 + (b2 - 128)) (b3 - 128)) by (unfold c; lia).
        replace (240 + (b0 - 240)) with b0 by lia. replace (128 + (b1 - 128)) with b1 by lia.
        replace (128 + (b2 - 128)) with b2 by lia. replace (128 + (b3 - 128)) with b3 by lia. reflexivity.
  Qed.
End Utf8.
Lemma utf8_iff b s : utf8_decode b = Some s <-> unicode s /\ b = utf8_encode s.
Proof.
  split; [apply (utf8_unique_n (length b)); lia|]. intros [U ->]. apply utf8_round. exact U.
Qed.

Lemma rust_string_text c s : text c s -> rust_string c = Some (Ok s).
Proof. intros [U ->]. simpl. rewrite (proj2 (utf8_iff _ s)); auto. Qed.
Lemma rust_string_none c : (forall s, ~ text c s) -> rust_string c = Some (Err EOther).
Proof.
  intros N. destruct c as [|b]; auto. simpl. destruct (utf8_decode b) as [s|] eqn:E; auto.
  exfalso. apply utf8_iff in E as [U ->]. apply (N s). split; auto.
Qed.
Lemma elements_text l m : Forall2 text l m -> elements l = Some (Ok m).
Proof.
  induction 1 as [|c s l m [U ->] F IH]; auto. simpl. rewrite (proj2 (utf8_iff _ s)); auto. cbn [ok_or abind]. rewrite IH. reflexivity.
Qed.
Lemma rust_strings_text c o : texts c o -> rust_strings c = Some (Ok o).
Proof.
  unfold texts. destruct c as [| |l], o as [m|]; try contradiction; intros H; auto. simpl. rewrite (elements_text _ _ H). reflexivity.
Qed.

Lemma element_bad c : c <> CNull -> bad_text c -> element c = Some (Err EOther).
Proof.
  intros N B. destruct c as [|b]; [contradiction|]. apply (rust_string_none (CBytes b)). exact B.
Qed.
Lemma elements_bad l : ~ In CNull l -> Exists bad_text l -> elements l = Some (Err EOther).
Proof.
  induction l as [|c l IH]; intros N E; [inversion E|]. cbn [elements].
  assert (Nc : c <> CNull) by (intros ->; apply N; left; reflexivity).
  assert (Nl : ~ In CNull l) by (intros I; apply N; right; exact I).
  inversion E as [? ? B|? ? E']; subst.
  - rewrite element_bad by assumption. reflexivity.
  - destruct c as [|b]; [contradiction|]. simpl element. destruct (utf8_decode b); cbn [ok_or abind]; [|reflexivity].
    rewrite IH by assumption. reflexivity.
Qed.
Lemma rust_strings_bad l : bad_texts l -> rust_strings l = Some (Err EOther).
Proof. intros (m & -> & N & E). simpl. rewrite elements_bad by assumption. reflexivity. Qed.

Section Calls.
  Context (x : Ext) (to_json : output -> outcome str) (to_c : output -> outcome output).
  Notation step := (step x to_json to_c).
  Notation run := (run x to_json to_c).

  Lemma get_client_at w a en : client_at w a en false -> get_client w (Some a) = Some (Ok (a, en)).
  Proof. intros H. unfold client_at in H. simpl. rewrite H. reflexivity. Qed.
  Lemma get_client_bad w p : bad_client w p -> get_client w p = Some (Err EOther).
  Proof. intros [->|(a & en & -> & H)]; auto. unfold client_at in H. simpl. rewrite H. reflexivity. Qed.

  Lemma locked_reported w a en k o : k en = Some o ->
    reported o w (fst (locked w (Some (Ok (a, en))) k)) (snd (locked w (Some (Ok (a, en))) k)).
  Proof. intros E. unfold locked. rewrite E. destruct o; cbn; auto. Qed.

  (** ** What the functions do *)
  Lemma parse_call w env a en input s wl w' bl b' ia sa w1 r :
    client_at w a en false -> text input s -> texts wl w' -> texts bl b' ->
    step w env (RunParseWithAlternatives (Some a) input wl bl ia sa false) = (w1, r) ->
    reported (let* v := parse_with_alternatives x (env_ord1 env) (env_ord2 env) en s w' b' ia sa in to_c (OutParse v)) w w1 r.
  Proof.
    intros C T W B E. simpl in E. unfold run_parse in E. rewrite (rust_string_text _ _ T) in E. cbn [first] in E.
    rewrite (get_client_at _ _ _ C) in E.
    match type of E with locked w _ ?k = _ => assert (K : k en =
      Some (let* v := parse_with_alternatives x (env_ord1 env) (env_ord2 env) en s w' b' ia sa in to_c (OutParse v))) end.
    { rewrite (rust_strings_text _ _ W), (rust_strings_text _ _ B). cbn [abind].
      destruct (parse_with_alternatives _ _ _ _ _ _ _ _ _); reflexivity. }
    pose proof (locked_reported w a en _ _ K) as H. rewrite E in H. exact H.
  Qed.
  Lemma slots_call w env a en input s intent i sa w1 r :
    client_at w a en false -> text input s -> text intent i ->
    step w env (RunGetSlotsWithAlternatives (Some a) input intent sa false) = (w1, r) ->
    reported (let* v := get_slots_with_alternatives x en s i sa in to_c (OutSlots v)) w w1 r.
  Proof.
    intros C T I E. simpl in E. unfold run_get_slots in E. rewrite (rust_string_text _ _ T), (rust_string_text _ _ I) in E.
    cbn [first] in E. rewrite (get_client_at _ _ _ C) in E.
    match type of E with locked w _ ?k = _ => assert (K : k en =
      Some (let* v := get_slots_with_alternatives x en s i sa in to_c (OutSlots v))) end.
    { destruct (get_slots_with_alternatives _ _ _ _ _); reflexivity. }
    pose proof (locked_reported w a en _ _ K) as H. rewrite E in H. exact H.
  Qed.
  Lemma intents_call w env a en input s w1 r :
    client_at w a en false -> text input s ->
    step w env (RunGetIntents (Some a) input false) = (w1, r) ->
    reported (let* v := get_intents (env_ord1 env) en s in to_c (OutIntents v)) w w1 r.
  Proof.
    intros C T E. simpl in E. unfold run_get_intents in E. rewrite (rust_string_text _ _ T) in E.
    cbn [first] in E. rewrite (get_client_at _ _ _ C) in E.
    match type of E with locked w _ ?k = _ => assert (K : k en =
      Some (let* v := get_intents (env_ord1 env) en s in to_c (OutIntents v))) end.
    { destruct (get_intents _ _ _); reflexivity. }
    pose proof (locked_reported w a en _ _ K) as H. rewrite E in H. exact H.
  Qed.
  Lemma short_calls w env p input wl bl intent json :
    step w env (RunParse p input wl bl json) = step w env (RunParseWithAlternatives p input wl bl 0 0 json) /\
    step w env (RunGetSlots p input intent json) = step w env (RunGetSlotsWithAlternatives p input intent 0 json).
  Proof. auto. Qed.

  (** *** The same in json *)
  Hypothesis no_zero : forall o s, to_json o = Ok s -> ~ In 0%N s.
  Lemma give_json o : give to_json to_c true o = (let* s := to_json o in Ok (OutText s)).
  Proof.
    simpl. destruct (to_json o) as [s|e|] eqn:E; auto. cbn [bind]. unfold point_to_string.
    destruct (existsb (N.eqb 0) s) eqn:Z; auto. exfalso. apply existsb_exists in Z as (c & I & Q).
    apply N.eqb_eq in Q. subst c. eapply no_zero; eauto.
  Qed.
  Lemma parse_json_call w env a en input s wl w' bl b' ia sa w1 r :
    client_at w a en false -> text input s -> texts wl w' -> texts bl b' ->
    step w env (RunParseWithAlternatives (Some a) input wl bl ia sa true) = (w1, r) ->
    reported (let* v := parse_with_alternatives x (env_ord1 env) (env_ord2 env) en s w' b' ia sa in
              let* t := to_json (OutParse v) in Ok (OutText t)) w w1 r.
  Proof.
    intros C T W B E. simpl in E. unfold run_parse in E. rewrite (rust_string_text _ _ T) in E. cbn [first] in E.
    rewrite (get_client_at _ _ _ C) in E.
    match type of E with locked w _ ?k = _ => assert (K : k en =
      Some (let* v := parse_with_alternatives x (env_ord1 env) (env_ord2 env) en s w' b' ia sa in
            let* t := to_json (OutParse v) in Ok (OutText t))) end.
    { rewrite (rust_strings_text _ _ W), (rust_strings_text _ _ B). cbn [abind].
      destruct (parse_with_alternatives _ _ _ _ _ _ _ _ _); cbn [abind bind]; auto. rewrite give_json. reflexivity. }
    pose proof (locked_reported w a en _ _ K) as H. rewrite E in H. exact H.
  Qed.
  Lemma slots_json_call w env a en input s intent i sa w1 r :
    client_at w a en false -> text input s -> text intent i ->
    step w env (RunGetSlotsWithAlternatives (Some a) input intent sa true) = (w1, r) ->
    reported (let* v := get_slots_with_alternatives x en s i sa in let* t := to_json (OutSlots v) in Ok (OutText t)) w w1 r.
  Proof.
    intros C T I E. simpl in E. unfold run_get_slots in E. rewrite (rust_string_text _ _ T), (rust_string_text _ _ I) in E.
    cbn [first] in E. rewrite (get_client_at _ _ _ C) in E.
    match type of E with locked w _ ?k = _ => assert (K : k en =
      Some (let* v := get_slots_with_alternatives x en s i sa in let* t := to_json (OutSlots v) in Ok (OutText t))) end.
    { destruct (get_slots_with_alternatives _ _ _ _ _); cbn [abind bind]; auto. rewrite give_json. reflexivity. }
    pose proof (locked_reported w a en _ _ K) as H. rewrite E in H. exact H.
  Qed.
  Lemma intents_json_call w env a en input s w1 r :
    client_at w a en false -> text input s ->
    step w env (RunGetIntents (Some a) input true) = (w1, r) ->
    reported (let* v := get_intents (env_ord1 env) en s in let* t := to_json (OutIntents v) in Ok (OutText t)) w w1 r.
  Proof.
    intros C T E. simpl in E. unfold run_get_intents in E. rewrite (rust_string_text _ _ T) in E.
    cbn [first] in E. rewrite (get_client_at _ _ _ C) in E.
    match type of E with locked w _ ?k = _ => assert (K : k en =
      Some (let* v := get_intents (env_ord1 env) en s in let* t := to_json (OutIntents v) in Ok (OutText t))) end.
    { destruct (get_intents _ _ _); cbn [abind bind]; auto. rewrite give_json. reflexivity. }
    pose proof (locked_reported w a en _ _ K) as H. rewrite E in H. exact H.
  Qed.
  Lemma version_call w env : step w env GetModelVersion = (w, ROk (OutText $"0.20.0")).
  Proof. reflexivity. Qed.

  (** *** Clients *)
  Lemma hget_cons_eq {V} a (v : V) l : hget Nat.eqb a ((a, v) :: l) = Some v.
  Proof. simpl. rewrite Nat.eqb_refl. reflexivity. Qed.

  Lemma create_dir_call w env root s w1 r : text root s -> step w env (CreateFromDir root) = (w1, r) ->
    match env_dir env s with
    | Ok en => r = ROk (OutClient (env_address env)) /\ client_at w1 (env_address env) en false /\ w_error w1 = w_error w
    | Err e => r = RKo /\ w1 = mkWorld (w_clients w) (Some e)
    | Panic => r = RPanic /\ w1 = w
    end.
  Proof.
    intros T E. simpl in E. unfold new_client in E. rewrite (rust_string_text _ _ T) in E. cbn [abind] in E.
    destruct (env_dir env s) as [en|e|]; cbn [first wrap] in E; inv E; auto.
    split; auto. split; auto. apply hget_cons_eq.
  Qed.
  Lemma create_zip_call w env zip w1 r : step w env (CreateFromZip (Some zip)) = (w1, r) ->
    match env_zip env zip with
    | Ok en => r = ROk (OutClient (env_address env)) /\ client_at w1 (env_address env) en false /\ w_error w1 = w_error w
    | Err e => r = RKo /\ w1 = mkWorld (w_clients w) (Some e)
    | Panic => r = RPanic /\ w1 = w
    end.
  Proof.
    intros E. simpl in E. unfold new_client in E. cbn [abind] in E.
    destruct (env_zip env zip) as [en|e|]; cbn [first wrap] in E; inv E; auto.
    split; auto. split; auto. apply hget_cons_eq.
  Qed.
End Calls.

Section Histories.
  Context (x : Ext) (to_json : output -> outcome str) (to_c : output -> outcome output).
  Notation step := (step x to_json to_c).
  Notation run := (run x to_json to_c).

  Lemma refused_call w env c : refused w c ->
    snd (step w env c) = RKo /\ fst (step w env c) = mkWorld (w_clients w) (Some EOther).
  Proof.
    assert (P : forall p i wl bl ia sa json,
      bad_text i \/ bad_client w p \/
      ((exists a en, p = Some a /\ client_at w a en false) /\ (bad_texts wl \/ ((exists o, texts wl o) /\ bad_texts bl))) ->
      snd (run_parse x to_json to_c w env p i wl bl ia sa json) = RKo /\
      fst (run_parse x to_json to_c w env p i wl bl ia sa json) = mkWorld (w_clients w) (Some EOther)).
    { intros p i wl bl ia sa json H. unfold run_parse.
      destruct H as [H|H]; [rewrite rust_string_none by exact H; auto|].
      destruct (rust_string i) as [[s|e|]|] eqn:Ei; cbn [first].
      - destruct H as [H|((a & en & -> & C) & H)].
        + rewrite get_client_bad by exact H. auto.
        + rewrite (get_client_at _ _ _ C). cbn [locked]. destruct H as [H|((o & To) & H)].
          * rewrite rust_strings_bad by exact H. auto.
          * rewrite (rust_strings_text _ _ To), (rust_strings_bad _ H). auto.
      - destruct i as [|b]; simpl in Ei; [inv Ei; auto|]. destruct (utf8_decode b); inv Ei; auto.
      - destruct i as [|b]; simpl in Ei; [inv Ei; auto|]. destruct (utf8_decode b); inv Ei; auto.
      - destruct i as [|b]; simpl in Ei; [inv Ei; auto|]. destruct (utf8_decode b); inv Ei; auto. }
    assert (S : forall p i n sa json, bad_text i \/ bad_text n \/ bad_client w p ->
      snd (run_get_slots x to_json to_c w p i n sa json) = RKo /\
      fst (run_get_slots x to_json to_c w p i n sa json) = mkWorld (w_clients w) (Some EOther)).
    { intros p i n sa json H. unfold run_get_slots.
      destruct i as [|b]; [auto|]. simpl rust_string at 1 3. destruct (utf8_decode b) as [s|] eqn:Eb; cbn [ok_or first wrap]; auto.
      destruct H as [H|H]; [exfalso; apply (H s); apply utf8_iff in Eb; destruct Eb as [U V]; split; [exact U | f_equal; exact V]|].
      destruct n as [|b']; [auto|]. simpl rust_string. destruct (utf8_decode b') as [s'|] eqn:Eb'; cbn [ok_or first wrap]; auto.
      destruct H as [H|H]; [exfalso; apply (H s'); apply utf8_iff in Eb'; destruct Eb' as [U V]; split; [exact U | f_equal; exact V]|].
      rewrite get_client_bad by exact H. auto. }
    destruct c; cbn [refused]; intros H; cbn [step].
    - unfold M_Ffi.step, new_client. rewrite rust_string_none by exact H. auto.
    - contradiction.
    - apply P. exact H.
    - apply P. exact H.
    - apply S. exact H.
    - apply S. exact H.
    - unfold M_Ffi.step, run_get_intents. destruct input as [|b]; [auto|]. simpl rust_string.
      destruct (utf8_decode b) as [s|] eqn:Eb; cbn [ok_or first wrap]; auto.
      destruct H as [H|H]; [exfalso; apply (H s); apply utf8_iff in Eb; destruct Eb as [U V]; split; [exact U | f_equal; exact V]|].
      rewrite get_client_bad by exact H. auto.
    - subst. auto.
    - contradiction.
  Qed.

  (** ** What a call leaves alone *)
  Definition untouched (w w1 : World) (a : nat) : Prop := hget Nat.eqb a (w_clients w1) = hget Nat.eqb a (w_clients w).

  Lemma wrap_clients w r : w_clients (fst (wrap w r)) = w_clients w.
  Proof. destruct r as [[v|e|]|]; reflexivity. Qed.
  Lemma wrap_error w r : match snd (wrap w r) with RKo => exists e, w_error (fst (wrap w r)) = Some e | _ => fst (wrap w r) = w end.
  Proof. destruct r as [[v|e|]|]; simpl; eauto. Qed.
  Lemma poison_other w a b : b <> a -> hget Nat.eqb b (w_clients (poison w a)) = hget Nat.eqb b (w_clients w).
  Proof.
    intros N. simpl. induction (w_clients w) as [|[k c] l IH]; auto. simpl.
    destruct (Nat.eqb k a) eqn:E; simpl; destruct (Nat.eqb b k) eqn:E2; auto.
    apply Nat.eqb_eq in E, E2. congruence.
  Qed.
  Lemma poison_same w a en p : client_at w a en p -> client_at (poison w a) a en true.
  Proof.
    unfold client_at. simpl. induction (w_clients w) as [|[k c] l IH]; [discriminate|]. simpl.
    destruct (Nat.eqb k a) eqn:E; simpl; rewrite Nat.eqb_sym, E; auto. intros H. inv H. reflexivity.
  Qed.

  (** The effect of a call on a client. *)
  Definition kept (w w1 : World) (r : reply) (a : nat) (about : bool) : Prop :=
    forall en p, client_at w a en p ->
      client_at w1 a en (p || (about && match r with RPanic => true | _ => false end)).

  Lemma kept_wrap w r a : kept w (fst (wrap w r)) (snd (wrap w r)) a false.
  Proof. intros en p H. unfold client_at in *. rewrite wrap_clients, orb_false_r. exact H. Qed.
  Lemma kept_false w w1 r a b : (forall v, r <> RPanic \/ v = b -> v = false) -> kept w w1 r a false -> kept w w1 r a b.
  Proof. intros H K. destruct b; auto. exfalso. discriminate (H true (or_intror eq_refl)). Qed.

  Lemma get_client_no_panic w p : get_client w p <> Some Panic.
  Proof. destruct p as [a|]; simpl; [|discriminate]. destruct (hget Nat.eqb a (w_clients w)) as [c|]; [|discriminate]. destruct (cl_poisoned c); discriminate. Qed.
  Lemma get_client_inv w q a en : get_client w q = Some (Ok (a, en)) -> q = Some a /\ client_at w a en false.
  Proof.
    destruct q as [b|]; simpl; [|discriminate]. unfold client_at. destruct (hget Nat.eqb b (w_clients w)) as [[e p]|] eqn:E; [|discriminate].
    cbn [cl_poisoned cl_engine]. destruct p; [discriminate|]. intros H. inv H. auto.
  Qed.
  Lemma rust_string_no_panic c : rust_string c <> Some Panic.
  Proof. destruct c as [|b]; simpl; [discriminate|]. destruct (utf8_decode b); discriminate. Qed.

  (** A call on client [q] that answers [locked]. *)
  Lemma kept_locked w q k a : kept w (fst (locked w (get_client w q) k)) (snd (locked w (get_client w q) k)) a
                                (match q with Some b => Nat.eqb b a | None => false end).
  Proof.
    intros en p C. destruct (get_client w q) as [[[b e]|er|]|] eqn:G.
    - apply get_client_inv in G as [-> Cb]. cbn [locked]. destruct (Nat.eqb b a) eqn:E.
      + apply Nat.eqb_eq in E as ->. assert (Q : en = e /\ p = false) by (unfold client_at in *; rewrite C in Cb; inv Cb; auto).
        destruct Q as [-> ->]. destruct (k e) as [[v|er|]|]; cbn [fst snd wrap orb andb]; auto.
        eapply poison_same; eauto.
      + apply Nat.eqb_neq in E. cbn [andb]. rewrite orb_false_r. destruct (k e) as [[v|er|]|]; cbn [fst snd wrap]; auto.
        unfold client_at in *. rewrite poison_other by auto. exact C.
    - cbn [locked wrap fst snd]. rewrite andb_false_r, orb_false_r. exact C.
    - exfalso. eapply get_client_no_panic; eauto.
    - cbn [locked wrap fst snd]. rewrite andb_false_r, orb_false_r. exact C.
  Qed.
  Lemma kept_first {A} w c (k : A -> World * reply) f0 a b :
    (forall s, f0 = Some (Ok s) -> kept w (fst (k s)) (snd (k s)) a b) -> f0 <> Some Panic ->
    c = first w f0 k -> kept w (fst c) (snd c) a b.
  Proof.
    intros H N ->. destruct f0 as [[s|e|]|]; cbn [first]; auto; try contradiction.
    - intros en p C. cbn [wrap fst snd]. rewrite andb_false_r, orb_false_r. exact C.
    - intros en p C. cbn [wrap fst snd]. rewrite andb_false_r, orb_false_r. exact C.
  Qed.

  Lemma step_kept w env c a :
    (creates c -> hget Nat.eqb (env_address env) (w_clients w) = None) -> c <> DestroyClient (Some a) ->
    kept w (fst (step w env c)) (snd (step w env c)) a (match about c with Some b => Nat.eqb b a | None => false end).
  Proof.
    intros F ND. destruct c; cbn [about].
    - intros en p C. cbn [andb]. rewrite orb_false_r. simpl. unfold new_client.
      destruct (abind (rust_string root) (fun s => Some (env_dir env s))) as [[e|er|]|]; cbn [first wrap fst]; auto.
      unfold client_at in *. simpl. destruct (Nat.eqb a (env_address env)) eqn:E; auto.
      apply Nat.eqb_eq in E. subst a. rewrite F in C; [discriminate|exact I].
    - intros en p C. cbn [andb]. rewrite orb_false_r. simpl. unfold new_client.
      destruct (abind (rust_bytes zip) (fun b => Some (env_zip env b))) as [[e|er|]|]; cbn [first wrap fst]; auto.
      unfold client_at in *. simpl. destruct (Nat.eqb a (env_address env)) eqn:E; auto.
      apply Nat.eqb_eq in E. subst a. rewrite F in C; [discriminate|exact I].
    - eapply kept_first; [|apply (rust_string_no_panic input)|reflexivity]. intros s _. apply kept_locked.
    - eapply kept_first; [|apply (rust_string_no_panic input)|reflexivity]. intros s _. apply kept_locked.
    - eapply kept_first; [|apply (rust_string_no_panic input)|reflexivity]. intros s _.
      eapply kept_first; [|apply (rust_string_no_panic intent)|reflexivity]. intros i _. apply kept_locked.
    - eapply kept_first; [|apply (rust_string_no_panic input)|reflexivity]. intros s _.
      eapply kept_first; [|apply (rust_string_no_panic intent)|reflexivity]. intros i _. apply kept_locked.
    - eapply kept_first; [|apply (rust_string_no_panic input)|reflexivity]. intros s _. apply kept_locked.
    - intros en p C. simpl. destruct client as [b|]; simpl; [|rewrite orb_false_r; exact C].
      assert (N : b <> a) by (intros ->; contradiction).
      apply Nat.eqb_neq in N as Nb. rewrite Nb. cbn [andb]. rewrite orb_false_r.
      destruct (hget Nat.eqb b (w_clients w)); cbn [fst]; auto.
      unfold client_at in *. simpl. revert C. clear -N. induction (w_clients w) as [|[k c] l IH]; auto. simpl.
      destruct (Nat.eqb k b) eqn:E; cbn [negb].
      + intros H. apply IH. destruct (Nat.eqb a k) eqn:E2; auto. apply Nat.eqb_eq in E, E2. congruence.
      + simpl. destruct (Nat.eqb a k) eqn:E2; auto.
    - intros en p C. simpl. rewrite orb_false_r. exact C.
  Qed.

  (** A client keeps its engine until it is destroyed, and is usable until a call on it
      panics. *)
  Lemma client_kept l : forall w a en p, allocator_ok x to_json to_c w l ->
    (forall env, ~ In (env, DestroyClient (Some a)) l) -> client_at w a en p ->
    exists p', client_at (fst (run w l)) a en p' /\
      (p' = true <-> p = true \/ exists k env c, nth_error l k = Some (env, c) /\ about c = Some a /\
                                  nth_error (snd (run w l)) k = Some RPanic).
  Proof.
    induction l as [|[env c] l IH]; intros w a en p Al ND C.
    - exists p. split; [exact C|]. split; [auto|]. intros [H|(k & e & c & H & _)]; auto. destruct k; discriminate.
    - destruct Al as [F Al]. cbn [M_Ffi.run].
      assert (K := step_kept w env c a F). specialize (K (fun E => ND env (or_introl (f_equal (pair env) E))) en p C).
      destruct (step w env c) as [w1 r] eqn:E. cbn [fst snd] in *.
      destruct (IH w1 a en _ Al (fun e I => ND e (or_intror I)) K) as (p' & C' & Q).
      destruct (run w1 l) as [w2 rs]. cbn [fst snd] in *. exists p'. split; auto. rewrite Q. split.
      + intros [H|(k & e & c' & A & B & D)]; [|right; exists (S k), e, c'; auto].
        apply orb_prop in H as [H|H]; [left; exact H|right]. apply andb_prop in H as [H1 H2].
        exists 0, env, c. split; auto. split.
        * destruct (about c) as [b|]; [|discriminate]. apply Nat.eqb_eq in H1. congruence.
        * simpl. destruct r; congruence.
      + intros [->|(k & e & c' & A & B & D)]; [left; reflexivity|]. destruct k as [|k]; [left|right; exists k, e, c'; auto].
        simpl in A, D. inv A. inv D. rewrite B, Nat.eqb_refl. apply orb_true_r.
  Qed.

  (** The reply depends only on the client. *)
  Lemma locked_reply w1 w2 q k : (forall a, q = Some a -> hget Nat.eqb a (w_clients w1) = hget Nat.eqb a (w_clients w2)) ->
    snd (locked w1 (get_client w1 q) k) = snd (locked w2 (get_client w2 q) k).
  Proof.
    intros H. assert (G : get_client w1 q = get_client w2 q).
    { destruct q as [a|]; auto. simpl. rewrite (H a eq_refl). reflexivity. }
    rewrite G. destruct (get_client w2 q) as [[[b e]|er|]|]; cbn [locked]; auto. destruct (k e) as [[v|er|]|]; reflexivity.
  Qed.
  Lemma first_reply {A} w1 w2 (m : act A) k1 k2 : (forall a, snd (k1 a) = snd (k2 a)) ->
    snd (first w1 m k1) = snd (first w2 m k2).
  Proof. intros H. destruct m as [[v|er|]|]; cbn [first]; auto. Qed.
  Lemma reply_only_client w1 w2 env c :
    (forall a, about c = Some a -> hget Nat.eqb a (w_clients w1) = hget Nat.eqb a (w_clients w2)) ->
    snd (step w1 env c) = snd (step w2 env c).
  Proof.
    intros H. destruct c; cbn [about] in H; unfold M_Ffi.step, new_client, run_parse, run_get_slots, run_get_intents, destroy_client.
    - apply first_reply. reflexivity.
    - apply first_reply. reflexivity.
    - apply first_reply. intros s. apply locked_reply. exact H.
    - apply first_reply. intros s. apply locked_reply. exact H.
    - apply first_reply. intros s. apply first_reply. intros i. apply locked_reply. exact H.
    - apply first_reply. intros s. apply first_reply. intros i. apply locked_reply. exact H.
    - apply first_reply. intros s. apply locked_reply. exact H.
    - destruct client as [a|]; auto. simpl. rewrite (H a eq_refl). destruct (hget Nat.eqb a (w_clients w2)); reflexivity.
    - reflexivity.
  Qed.

  (** An error is recorded exactly when the call fails. *)
  Lemma locked_error w q k : match snd (locked w (get_client w q) k) with
    | RKo => exists e, w_error (fst (locked w (get_client w q) k)) = Some e
    | _ => w_error (fst (locked w (get_client w q) k)) = w_error w end.
  Proof.
    destruct (get_client w q) as [[[b e]|er|]|]; cbn [locked wrap fst snd w_error]; eauto.
    destruct (k e) as [[v|er|]|]; cbn [fst snd wrap w_error]; eauto.
  Qed.
  Lemma first_error {A} w (m : act A) k :
    (forall a, match snd (k a) with RKo => exists e, w_error (fst (k a)) = Some e | _ => w_error (fst (k a)) = w_error w end) ->
    match snd (first w m k) with RKo => exists e, w_error (fst (first w m k)) = Some e
                               | _ => w_error (fst (first w m k)) = w_error w end.
  Proof. intros H. destruct m as [[v|er|]|]; cbn [first wrap fst snd w_error]; eauto. apply H. Qed.
  Lemma error_recorded w env c : match snd (step w env c) with
    | RKo => exists e, w_error (fst (step w env c)) = Some e
    | _ => w_error (fst (step w env c)) = w_error w end.
  Proof.
    destruct c; unfold M_Ffi.step, new_client, run_parse, run_get_slots, run_get_intents, destroy_client.
    - apply first_error. reflexivity.
    - apply first_error. reflexivity.
    - apply first_error. intros s. apply locked_error.
    - apply first_error. intros s. apply locked_error.
    - apply first_error. intros s. apply first_error. intros i. apply locked_error.
    - apply first_error. intros s. apply first_error. intros i. apply locked_error.
    - apply first_error. intros s. apply locked_error.
    - destruct client as [a|]; simpl; eauto. destruct (hget Nat.eqb a (w_clients w)); simpl; eauto.
    - reflexivity.
  Qed.

  (** What happens is undefined only when the caller misuses pointers. *)
  Lemma rust_string_defined c : rust_string c <> None.
  Proof. destruct c; discriminate. Qed.
  Lemma elements_undefined l : elements l = None -> In CNull l.
  Proof.
    induction l as [|c l IH]; [discriminate|]. cbn [elements]. destruct c as [|b]; [left; reflexivity|].
    simpl element. destruct (utf8_decode b); cbn [ok_or abind]; [|discriminate].
    destruct (elements l) as [[m|e|]|]; cbn [abind]; try discriminate. right. auto.
  Qed.
  Lemma rust_strings_undefined l : rust_strings l = None -> l = LNoData \/ exists m, l = LData m /\ In CNull m.
  Proof.
    destruct l as [| |m]; [discriminate|left; reflexivity|]. simpl. destruct (elements m) as [[v|e|]|] eqn:E; cbn [abind]; try discriminate.
    intros _. right. exists m. split; auto. apply elements_undefined. exact E.
  Qed.
  Lemma first_undefined {A} w (m : act A) k : snd (first w m k) = RUndefined -> m <> None ->
    exists a, m = Some (Ok a) /\ snd (k a) = RUndefined.
  Proof. destruct m as [[v|e|]|]; cbn [first wrap snd]; try discriminate; try contradiction; eauto. Qed.
  Lemma locked_undefined w q k : snd (locked w (get_client w q) k) = RUndefined ->
    (exists a, q = Some a /\ hget Nat.eqb a (w_clients w) = None) \/ exists en, k en = None.
  Proof.
    destruct (get_client w q) as [[[b e]|er|]|] eqn:G; cbn [locked wrap snd]; try discriminate.
    - destruct (k e) as [[v|er|]|] eqn:K; cbn [snd wrap]; try discriminate. eauto.
    - intros _. left. destruct q as [a|]; [|discriminate]. exists a. split; auto. simpl in G.
      destruct (hget Nat.eqb a (w_clients w)); [discriminate|reflexivity].
  Qed.
  Lemma undefined_only w env c : snd (step w env c) = RUndefined -> misused w c.
  Proof.
    assert (P : forall p i wl bl ia sa json, snd (run_parse x to_json to_c w env p i wl bl ia sa json) = RUndefined ->
      (exists a, p = Some a /\ hget Nat.eqb a (w_clients w) = None) \/ In LNoData [wl; bl] \/ (exists l, In (LData l) [wl; bl] /\ In CNull l)).
    { intros p i wl bl ia sa json H. apply first_undefined in H as (s & _ & H); [|apply rust_string_defined].
      apply locked_undefined in H as [H|(en & H)]; [left; exact H|right].
      destruct (rust_strings wl) as [[w'|e|]|] eqn:W; cbn [abind] in H; try discriminate.
      - destruct (rust_strings bl) as [[b'|e|]|] eqn:B; cbn [abind] in H; try discriminate.
        + destruct (parse_with_alternatives _ _ _ _ _ _ _ _ _); cbn [abind] in H; discriminate.
        + apply rust_strings_undefined in B as [->|(m & -> & B)]; [left; right; left; reflexivity|right].
          exists m. split; [right; left; reflexivity|exact B].
      - apply rust_strings_undefined in W as [->|(m & -> & B)]; [left; left; reflexivity|right].
        exists m. split; [left; reflexivity|exact B]. }
    assert (S : forall p i n sa json, snd (run_get_slots x to_json to_c w p i n sa json) = RUndefined ->
      exists a, p = Some a /\ hget Nat.eqb a (w_clients w) = None).
    { intros p i n sa json H. apply first_undefined in H as (s & _ & H); [|apply rust_string_defined].
      apply first_undefined in H as (t & _ & H); [|apply rust_string_defined].
      apply locked_undefined in H as [H|(en & H)]; [exact H|].
      destruct (get_slots_with_alternatives _ _ _ _ _); cbn [abind] in H; discriminate. }
    destruct c; unfold misused; cbn [about lists]; unfold M_Ffi.step; intros H; auto.
    - exfalso. unfold new_client in H. apply first_undefined in H as (s & _ & H); [discriminate|].
      pose proof (rust_string_defined root). destruct (rust_string root) as [[]|]; cbn [abind]; congruence.
    - right. right. right. destruct zip as [b|]; auto. exfalso. unfold new_client in H. cbn [rust_bytes abind] in H.
      apply first_undefined in H as (s & _ & H); discriminate.
    - apply P in H. tauto.
    - apply P in H. tauto.
    - left. eapply S; exact H.
    - left. eapply S; exact H.
    - left. apply first_undefined in H as (s & _ & H); [|apply rust_string_defined].
      apply locked_undefined in H as [H|(en & H)]; [exact H|]. destruct (get_intents _ _ _); cbn [abind] in H; discriminate.
    - left. destruct client as [a|]; [|discriminate]. exists a. split; auto. simpl in H.
      destruct (hget Nat.eqb a (w_clients w)); [discriminate|reflexivity].
    - discriminate.
  Qed.
  (** Destruction *)
  Lemma destroyed w env a en p : client_at w a en p -> snd (step w env (DestroyClient (Some a))) = ROk OutNothing /\
    hget Nat.eqb a (w_clients (fst (step w env (DestroyClient (Some a))))) = None.
  Proof.
    unfold client_at. intros C. simpl. rewrite C. split; auto. simpl. clear C.
    induction (w_clients w) as [|[k c] l IH]; auto. simpl. destruct (Nat.eqb k a) eqn:E; cbn [negb]; auto.
    simpl. rewrite Nat.eqb_sym, E. exact IH.
  Qed.

  (** A use of an engine after any history. *)
  Lemma after_any_history w l a en env c : client_at w a en false -> allocator_ok x to_json to_c w l ->
    (forall e, ~ In (e, DestroyClient (Some a)) l) ->
    (forall k e d, nth_error l k = Some (e, d) -> about d = Some a -> nth_error (snd (run w l)) k <> Some RPanic) ->
    about c = Some a -> snd (step (fst (run w l)) env c) = snd (step w env c).
  Proof.
    intros C Al ND NP A. destruct (client_kept l w a en false Al ND C) as (p' & C' & Q).
    assert (p' = false).
    { destruct p'; auto. destruct (proj1 Q eq_refl) as [H|(k & e & d & A1 & A2 & A3)]; [discriminate|].
      exfalso. eapply NP; eauto. }
    subst p'. apply reply_only_client. intros b Hb. rewrite A in Hb. inv Hb. unfold client_at in *. congruence.
  Qed.
End Histories.

(** The statements of Properties_Ffi. *)
Lemma json_calls x js cs : (forall o s, js o = Ok s -> ~ In 0%N s) ->
  forall w e a en input s, client_at w a en false -> text input s ->
  (forall wl w' bl b' ia sa w1 r, texts wl w' -> texts bl b' ->
     step x js cs w e (RunParseWithAlternatives (Some a) input wl bl ia sa true) = (w1, r) ->
     reported (let* v := parse_with_alternatives x (env_ord1 e) (env_ord2 e) en s w' b' ia sa in
               let* t := js (OutParse v) in Ok (OutText t)) w w1 r) /\
  (forall intent i sa w1 r, text intent i ->
     step x js cs w e (RunGetSlotsWithAlternatives (Some a) input intent sa true) = (w1, r) ->
     reported (let* v := get_slots_with_alternatives x en s i sa in let* t := js (OutSlots v) in Ok (OutText t)) w w1 r) /\
  (forall w1 r, step x js cs w e (RunGetIntents (Some a) input true) = (w1, r) ->
     reported (let* v := get_intents (env_ord1 e) en s in let* t := js (OutIntents v) in Ok (OutText t)) w w1 r).
Proof.
  intros NZ w e a en input s C T. split; [|split]; intros.
  - eapply parse_json_call; eauto.
  - eapply slots_json_call; eauto.
  - eapply intents_json_call; eauto.
Qed.
Lemma create_calls x js cs w e w1 r :
  (forall root s, text root s -> step x js cs w e (CreateFromDir root) = (w1, r) ->
     match env_dir e s with
     | Ok en => r = ROk (OutClient (env_address e)) /\ client_at w1 (env_address e) en false /\ w_error w1 = w_error w
     | Err er => r = RKo /\ w1 = mkWorld (w_clients w) (Some er)
     | Panic => r = RPanic /\ w1 = w
     end) /\
  (forall zip, step x js cs w e (CreateFromZip (Some zip)) = (w1, r) ->
     match env_zip e zip with
     | Ok en => r = ROk (OutClient (env_address e)) /\ client_at w1 (env_address e) en false /\ w_error w1 = w_error w
     | Err er => r = RKo /\ w1 = mkWorld (w_clients w) (Some er)
     | Panic => r = RPanic /\ w1 = w
     end).
Proof. split; intros; [eapply create_dir_call|eapply create_zip_call]; eauto. Qed.

(** ** Undefined behaviour that can be reached *)
Lemma elements_null pre pre' post : Forall2 text pre pre' -> elements (pre ++ CNull :: post) = None.
Proof.
  induction 1 as [|c s l l' [U ->] H IH]; [reflexivity|]. cbn [app elements element]. rewrite (proj2 (utf8_iff _ s)) by auto.
  cbn [ok_or abind]. rewrite IH. reflexivity.
Qed.
Lemma null_in_list x js cs w e a en input s ia sa json pre pre' post : client_at w a en false -> text input s -> Forall2 text pre pre' ->
  (forall bl, snd (step x js cs w e (RunParseWithAlternatives (Some a) input (LData (pre ++ CNull :: post)) bl ia sa json)) = RUndefined) /\
  (forall wl w', texts wl w' ->
     snd (step x js cs w e (RunParseWithAlternatives (Some a) input wl (LData (pre ++ CNull :: post)) ia sa json)) = RUndefined).
Proof.
  intros C I P. unfold step, run_parse. rewrite (rust_string_text _ _ I). cbn [first]. rewrite (get_client_at _ _ _ C). cbn [locked].
  split; [intros bl|intros wl w' W; rewrite (rust_strings_text _ _ W); cbn [abind]];
    cbn [rust_strings]; rewrite (elements_null _ _ _ P); reflexivity.
Qed.
