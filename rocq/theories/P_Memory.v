(** Lemmas about the memory of the C interface. *)
From Coq Require Import String List NArith ZArith Bool Arith Lia Permutation.
From Verif Require Import Base F32 M_Types M_Engine M_Filler M_Load S_Base S_Filler M_Ffi S_Ffi P_Base P_Encode P_Ffi M_Memory S_Memory.
Import ListNotations.
Local Open Scope nat_scope.

Lemma nodup_left {A} (l m : list A) : NoDup (l ++ m) -> NoDup l.
Proof.
  induction l as [|a l IH]; [constructor|]. simpl. intros H. inversion H as [|? ? Na Nl]; subst. constructor; auto.
  intros I. apply Na. apply in_or_app. auto.
Qed.
Lemma nodup_right {A} (l m : list A) : NoDup (l ++ m) -> NoDup m.
Proof. induction l as [|a l IH]; auto. simpl. intros H. inversion H; auto. Qed.

Section Keys.
  Context {V : Type}.
  Definition without (a : nat) (l : list (nat * V)) := filter (fun kv => negb (Nat.eqb (fst kv) a)) l.

  Lemma without_absent a (l : list (nat * V)) : ~ In a (map fst l) -> without a l = l.
  Proof.
    induction l as [|[k v] l IH]; auto. simpl. intros N. destruct (Nat.eqb k a) eqn:E.
    - apply Nat.eqb_eq in E. tauto.
    - cbn [negb]. f_equal. apply IH. tauto.
  Qed.
  Lemma without_keys a (l : list (nat * V)) : NoDup (map fst l) -> In a (map fst l) ->
    Permutation (map fst l) (a :: map fst (without a l)).
  Proof.
    induction l as [|[k v] l IH]; [intros _ []|]. simpl. intros N I. inversion N as [|? ? Nk Nl]; subst.
    destruct (Nat.eqb k a) eqn:E; cbn [negb].
    - apply Nat.eqb_eq in E. subst k. fold (without a l). rewrite without_absent by exact Nk. reflexivity.
    - apply Nat.eqb_neq in E. destruct I as [I|I]; [congruence|]. fold (without a l). simpl.
      rewrite (IH Nl I) at 1. apply perm_swap.
  Qed.
  Lemma without_get a b (l : list (nat * V)) : b <> a -> hget Nat.eqb b (without a l) = hget Nat.eqb b l.
  Proof.
    intros N. induction l as [|[k v] l IH]; auto. simpl. destruct (Nat.eqb k a) eqn:E; cbn [negb].
    - apply Nat.eqb_eq in E. subst k. apply Nat.eqb_neq in N. rewrite N. exact IH.
    - simpl. destruct (Nat.eqb b k); auto.
  Qed.
  Lemma without_gone a (l : list (nat * V)) : hget Nat.eqb a (without a l) = None.
  Proof.
    induction l as [|[k v] l IH]; auto. simpl. destruct (Nat.eqb k a) eqn:E; cbn [negb]; auto.
    simpl. rewrite Nat.eqb_sym, E. exact IH.
  Qed.
  Lemma hget_key a (l : list (nat * V)) v : hget Nat.eqb a l = Some v -> In a (map fst l).
  Proof. intros H. apply hget_In in H; [|exact Nat.eqb_eq]. apply in_map_iff. exists (a, v). auto. Qed.
  Lemma hget_absent a (l : list (nat * V)) : ~ In a (map fst l) -> hget Nat.eqb a l = None.
  Proof. intros N. destruct (hget Nat.eqb a l) as [v|] eqn:E; auto. exfalso. apply N. eapply hget_key. exact E. Qed.
  Lemma hget_none_absent a (l : list (nat * V)) : hget Nat.eqb a l = None -> ~ In a (map fst l).
  Proof.
    induction l as [|[k v] l IH]; [intros _ []|]. simpl. destruct (Nat.eqb_spec a k) as [->|N]; [discriminate|].
    intros H [E|E]; [congruence|exact (IH H E)].
  Qed.
End Keys.

Lemma kind_eqb_eq a b : kind_eqb a b = true <-> a = b.
Proof. destruct a, b; simpl; split; congruence. Qed.

Section Memory.
  Context (x : Ext) (js : output -> outcome str) (cs : output -> outcome output) (msg : option error -> str).
  Notation step := (step x js cs).
  Notation mstep := (mstep x js cs msg).
  Notation mrun := (mrun x js cs msg).
  Definition keys (w : World) : list nat := map fst (w_clients w).

  (** ** Addresses of clients *)
  Lemma poison_keys w a : keys (poison w a) = keys w.
  Proof. unfold keys. simpl. rewrite map_map. apply map_ext. intros [k c]. simpl. destruct (Nat.eqb k a); reflexivity. Qed.
  Lemma wrap_keys w r : keys (fst (wrap w r)) = keys w.
  Proof. unfold keys. rewrite wrap_clients. reflexivity. Qed.
  Lemma locked_keys w ae k : keys (fst (locked w ae k)) = keys w.
  Proof.
    destruct ae as [[[a en]|e|]|]; cbn [locked]; try apply wrap_keys.
    destruct (k en) as [[v|e|]|]; try apply wrap_keys. apply poison_keys.
  Qed.
  Lemma first_keys {A} w (m : act A) k : (forall a, keys (fst (k a)) = keys w) -> keys (fst (first w m k)) = keys w.
  Proof. intros H. destruct m as [[v|e|]|]; cbn [first]; auto; apply wrap_keys. Qed.

  (** What a call does to the addresses of clients. *)
  Definition gives_client (r : reply) : list nat := match r with ROk (OutClient a) => [a] | _ => [] end.
  Lemma locked_no_client w ae k : (forall en a, k en <> Some (Ok (OutClient a))) -> gives_client (snd (locked w ae k)) = [].
  Proof.
    intros H. destruct ae as [[[a en]|e|]|]; cbn [locked wrap snd gives_client]; auto.
    specialize (H en). destruct (k en) as [[v|e|]|]; cbn [wrap snd gives_client]; auto. destruct v; auto. exfalso. eapply H; reflexivity.
  Qed.
  Lemma step_keys w e c : (forall p, c <> DestroyClient p) -> (allocates c = None -> True) ->
    match allocates c with
    | Some _ => keys (fst (step w e c)) = keys w
    | None => keys (fst (step w e c)) = gives_client (snd (step w e c)) ++ keys w
    end.
  Proof.
    intros ND _. destruct c; cbn [allocates].
    - simpl. unfold new_client. destruct (abind _ _) as [[en|er|]|]; reflexivity.
    - simpl. unfold new_client. destruct (abind _ _) as [[en|er|]|]; reflexivity.
    - apply first_keys. intros s. apply locked_keys.
    - apply first_keys. intros s. apply locked_keys.
    - apply first_keys. intros s. apply first_keys. intros i. apply locked_keys.
    - apply first_keys. intros s. apply first_keys. intros i. apply locked_keys.
    - apply first_keys. intros s. apply locked_keys.
    - exfalso. eapply ND; reflexivity.
    - reflexivity.
  Qed.
  Lemma create_address w e c a : creates c -> snd (step w e c) = ROk (OutClient a) -> a = env_address e.
  Proof.
    destruct c; try contradiction; intros _; simpl; unfold new_client; destruct (abind _ _) as [[en|er|]|]; cbn; congruence.
  Qed.
  Lemma step_ok_client w e c o : allocates c = None -> snd (step w e c) = ROk o ->
    (creates c /\ o = OutClient (env_address e)) \/ (exists a, c = DestroyClient (Some a) /\ o = OutNothing).
  Proof.
    destruct c; try discriminate; intros _.
    - intros H. left. split; [exact I|]. revert H. simpl. unfold new_client. destruct (abind _ _) as [[en|er|]|]; cbn; congruence.
    - intros H. left. split; [exact I|]. revert H. simpl. unfold new_client. destruct (abind _ _) as [[en|er|]|]; cbn; congruence.
    - intros H. right. destruct client as [a|]; [|discriminate]. exists a. split; auto. revert H. simpl.
      destruct (hget Nat.eqb a (w_clients w)); cbn; congruence.
  Qed.

  (** ** Balance *)
  Lemma mstep_balance m e r m1 s : NoDup (in_use m) -> ~ In (env_address e) (in_use m) -> mstep m e r = (m1, s) ->
    Permutation (in_use m ++ given [s]) (taken_back [(e, r)] [s] ++ in_use m1) /\ NoDup (in_use m1).
  Proof.
    intros N F E. destruct r as [c| |k p].
    - simpl in E. unfold mcall in E. destruct (step (mem_world m) e c) as [w r] eqn:S.
      destruct (allocates c) as [k|] eqn:A.
      + assert (ND : forall p, c <> DestroyClient p) by (intros p ->; discriminate).
        pose proof (step_keys (mem_world m) e c ND (fun _ => I)) as K. rewrite A, S in K. cbn [fst] in K.
        assert (T : takes_back (Call c) = None) by (destruct c; try discriminate; reflexivity).
        unfold keys in K. destruct r as [o| | |]; unfold allocate in E; inv E; unfold in_use; cbn [mem_world mem_objects given taken_back map fst].
        * rewrite T. rewrite K. cbn [app]. unfold in_use in F, N. split.
          -- rewrite <- app_assoc. apply Permutation_app_head. rewrite Permutation_app_comm. reflexivity.
          -- apply NoDup_Add with (a := env_address e) (l := map fst (w_clients (mem_world m)) ++ map fst (mem_objects m)); [apply Add_app|split; auto].
        * rewrite K, app_nil_r. split; [reflexivity|exact N].
        * rewrite K, app_nil_r. split; [reflexivity|exact N].
        * rewrite K, app_nil_r. split; [reflexivity|exact N].
      + destruct r as [o| | |].
        * destruct (step_ok_client (mem_world m) e c o A) as [[C ->]|(a & -> & ->)]; [rewrite S; reflexivity| |].
          -- inv E. assert (ND : forall p, c <> DestroyClient p) by (intros p ->; contradiction).
             pose proof (step_keys (mem_world m) e c ND (fun _ => I)) as K. rewrite A, S in K. cbn [fst snd gives_client app] in K.
             unfold keys in K. cbn [given taken_back]. assert (T : takes_back (Call c) = None) by (destruct c; try contradiction; reflexivity).
             rewrite T. unfold in_use. cbn [mem_world mem_objects]. rewrite K. cbn [app]. split.
             ++ rewrite Permutation_app_comm. reflexivity.
             ++ constructor; auto.
          -- inv E. simpl in S. destruct (hget Nat.eqb a (w_clients (mem_world m))) as [cl|] eqn:G; [|discriminate]. inv S.
             cbn [given taken_back takes_back]. unfold in_use. cbn [mem_world mem_objects w_clients]. rewrite app_nil_r.
             fold (without a (w_clients (mem_world m))).
             unfold in_use in N.
             assert (P : Permutation (map fst (w_clients (mem_world m)) ++ map fst (mem_objects m))
                           (a :: map fst (without a (w_clients (mem_world m))) ++ map fst (mem_objects m))).
             { rewrite app_comm_cons. apply Permutation_app_tail. apply without_keys.
               - eapply nodup_left; exact N.
               - eapply hget_key; exact G. }
             split; [exact P|]. eapply Permutation_NoDup in N; [|exact P]. inversion N; auto.
        * assert (K : keys w = keys (mem_world m) /\ m1 = mkMem w (mem_objects m) /\ s = AKo).
          { inv E. split; auto. destruct c; try discriminate A; simpl in S.
            - unfold new_client in S. destruct (abind _ _) as [[en|er|]|]; inv S; reflexivity.
            - unfold new_client in S. destruct (abind _ _) as [[en|er|]|]; inv S; reflexivity.
            - destruct client as [a|]; simpl in S; [destruct (hget Nat.eqb a (w_clients (mem_world m)))|]; inv S; reflexivity. }
          destruct K as (K & -> & ->). unfold in_use, keys in *. cbn [given taken_back mem_world mem_objects]. rewrite app_nil_r, K. auto.
        * assert (K : keys w = keys (mem_world m) /\ m1 = mkMem w (mem_objects m) /\ s = APanic).
          { inv E. split; auto. destruct c; try discriminate A; simpl in S.
            - unfold new_client in S. destruct (abind _ _) as [[en|er|]|]; inv S; reflexivity.
            - unfold new_client in S. destruct (abind _ _) as [[en|er|]|]; inv S; reflexivity.
            - destruct client as [a|]; simpl in S; [destruct (hget Nat.eqb a (w_clients (mem_world m)))|]; inv S; reflexivity. }
          destruct K as (K & -> & ->). unfold in_use, keys in *. cbn [given taken_back mem_world mem_objects]. rewrite app_nil_r, K. auto.
        * assert (K : keys w = keys (mem_world m) /\ m1 = mkMem w (mem_objects m) /\ s = AUndefined).
          { inv E. split; auto. destruct c; try discriminate A; simpl in S.
            - unfold new_client in S. destruct (abind _ _) as [[en|er|]|]; inv S; reflexivity.
            - unfold new_client in S. destruct (abind _ _) as [[en|er|]|]; inv S; reflexivity.
            - destruct client as [a|]; simpl in S; [destruct (hget Nat.eqb a (w_clients (mem_world m)))|]; inv S; reflexivity. }
          destruct K as (K & -> & ->). unfold in_use, keys in *. cbn [given taken_back mem_world mem_objects]. rewrite app_nil_r, K. auto.
    - simpl in E. unfold get_last_error in E.
      destruct (point_to_string _) as [o|er|]; unfold allocate in E; inv E; unfold in_use in *; cbn [given taken_back takes_back mem_world mem_objects w_clients map fst app].
      + split.
        * rewrite <- app_assoc. apply Permutation_app_head. rewrite Permutation_app_comm. reflexivity.
        * apply NoDup_Add with (a := env_address e) (l := map fst (w_clients (mem_world m)) ++ map fst (mem_objects m)); [apply Add_app|split; auto].
      + rewrite app_nil_r. auto.
      + rewrite app_nil_r. auto.
    - simpl in E. unfold destroy in E. destruct p as [a|].
      + destruct (hget Nat.eqb a (mem_objects m)) as [[k' o]|] eqn:G; [destruct (kind_eqb k k')|]; inv E;
          unfold in_use in *; cbn [given taken_back takes_back mem_world mem_objects]; rewrite ?app_nil_r; auto.
        fold (without a (mem_objects m)).
        assert (P : Permutation (map fst (w_clients (mem_world m)) ++ map fst (mem_objects m))
                           (a :: map fst (w_clients (mem_world m)) ++ map fst (without a (mem_objects m)))).
        { rewrite Permutation_middle. apply Permutation_app_head. apply without_keys.
          - eapply nodup_right; exact N.
          - eapply hget_key; exact G. }
        split; [exact P|]. eapply Permutation_NoDup in N; [|exact P]. inversion N; auto.
      + inv E. unfold in_use in *. cbn [given taken_back takes_back mem_world mem_objects w_clients]. rewrite app_nil_r. auto.
  Qed.
  Lemma given_cons s t : given (s :: t) = given [s] ++ given t.
  Proof. destruct s as [[a|]| | |]; reflexivity. Qed.
  Lemma taken_cons e r l s t : taken_back ((e, r) :: l) (s :: t) = taken_back [(e, r)] [s] ++ taken_back l t.
  Proof. destruct s as [a| | |]; cbn [taken_back]; auto. destruct (takes_back r); reflexivity. Qed.
  Lemma balance l : forall m, NoDup (in_use m) -> fresh_addresses x js cs msg m l ->
    Permutation (in_use m ++ given (snd (mrun m l))) (taken_back l (snd (mrun m l)) ++ in_use (fst (mrun m l))) /\
    NoDup (in_use (fst (mrun m l))).
  Proof.
    induction l as [|[e r] l IH]; intros m N F; [cbn; rewrite app_nil_r; auto|].
    destruct F as [F0 F]. cbn [M_Memory.mrun]. destruct (mstep m e r) as [m1 s] eqn:E. cbn [fst] in F.
    destruct (mstep_balance m e r m1 s N F0 E) as [P N1]. destruct (IH m1 N1 F) as [P2 N2].
    destruct (mrun m1 l) as [m2 t]. cbn [fst snd] in *. split; [|exact N2].
    rewrite given_cons, taken_cons, app_assoc, P, <- app_assoc, P2, app_assoc. reflexivity.
  Qed.

  (** ** Objects stay *)
  Lemma mstep_object m e r a k o : ~ In (env_address e) (in_use m) -> ~ destroys r a -> object_at m a k o ->
    object_at (fst (mstep m e r)) a k o.
  Proof.
    unfold object_at. intros F N H.
    assert (Na : a <> env_address e).
    { intros ->. apply F. unfold in_use. apply in_or_app. right. eapply hget_key. exact H. }
    assert (Al : forall w k' v, hget Nat.eqb a (mem_objects (fst (allocate w (mem_objects m) e k' v))) = Some (k, o)).
    { intros w k' v. cbn. apply Nat.eqb_neq in Na. rewrite Na. exact H. }
    destruct r as [c| |k' p]; cbn [M_Memory.mstep].
    - unfold mcall. destruct (step (mem_world m) e c) as [w r]. destruct r as [v| | |]; auto.
      destruct (allocates c) as [k'|]; [apply Al|]. destruct v; auto.
    - unfold get_last_error. destruct (point_to_string _) as [v|er|]; auto.
    - unfold destroy. destruct p as [b|]; auto. destruct (hget Nat.eqb b (mem_objects m)) as [[k2 v]|]; auto.
      destruct (kind_eqb k' k2); auto. cbn [fst mem_objects]. fold (without b (mem_objects m)). rewrite without_get; auto.
      intros ->. apply N. exists k'. reflexivity.
  Qed.
  Lemma object_kept l : forall m a k o, fresh_addresses x js cs msg m l ->
    (forall e r, In (e, r) l -> ~ destroys r a) -> object_at m a k o -> object_at (fst (mrun m l)) a k o.
  Proof.
    induction l as [|[e r] l IH]; intros m a k o F N H; auto. destruct F as [F0 F].
    pose proof (mstep_object m e r a k o F0 (N e r (or_introl eq_refl)) H) as H1. cbn [M_Memory.mrun].
    destruct (mstep m e r) as [m1 s]. cbn [fst] in *. specialize (IH m1 a k o F (fun e' r' I => N e' r' (or_intror I)) H1).
    destruct (mrun m1 l). exact IH.
  Qed.

  (** ** What a request does *)
  Lemma handed_call m e c k o m1 r : allocates c = Some k ->
    reported o (mem_world m) (fst (step (mem_world m) e c)) (snd (step (mem_world m) e c)) ->
    mstep m e (Call c) = (m1, r) -> handed e k o m m1 r.
  Proof.
    intros A R E. cbn [M_Memory.mstep] in E. unfold mcall in E. destruct (step (mem_world m) e c) as [w rp]. cbn [fst snd] in R.
    destruct o as [v|er|]; cbn [reported handed] in *.
    - destruct R as [-> ->]. rewrite A in E. unfold allocate in E. inv E. auto.
    - destruct R as [-> ->]. inv E. auto.
    - subst rp. inv E. reflexivity.
  Qed.
  Lemma destroy_object m e a k o : object_at m a k o ->
    mstep m e (Destroy k (Some a)) = (mkMem (mem_world m) (without a (mem_objects m)), AOk None).
  Proof. unfold object_at. intros H. simpl. rewrite H. rewrite (proj2 (kind_eqb_eq k k) eq_refl). reflexivity. Qed.
  Lemma destroy_once m e a k o m1 r : object_at m a k o -> mstep m e (Destroy k (Some a)) = (m1, r) ->
    r = AOk None /\ mem_world m1 = mem_world m /\ (forall k' o', ~ object_at m1 a k' o') /\
    forall b k' o', b <> a -> (object_at m1 b k' o' <-> object_at m b k' o').
  Proof.
    intros H E. rewrite (destroy_object m e a k o H) in E. inv E. split; auto. split; auto. unfold object_at. cbn [mem_objects]. split.
    - intros k' o'. rewrite without_gone. discriminate.
    - intros b k' o' N. rewrite without_get by auto. reflexivity.
  Qed.
  Lemma destroy_null m e k : mstep m e (Destroy k None) = (mkMem (mkWorld (w_clients (mem_world m)) (Some EOther)) (mem_objects m), AKo).
  Proof. reflexivity. Qed.
  Lemma undefined_request m e r : snd (mstep m e r) = AUndefined -> mistaken m r.
  Proof.
    destruct r as [c| |k p]; cbn [M_Memory.mstep mistaken].
    - unfold mcall. intros H. apply (undefined_only x js cs (mem_world m) e c).
      destruct (step (mem_world m) e c) as [w r]. cbn [snd] in *. destruct r as [v| | |]; cbn in H; try discriminate; auto.
      destruct (allocates c); [discriminate|]. destruct v; discriminate.
    - unfold get_last_error. destruct (point_to_string _) as [v|er|] eqn:E; try discriminate.
    - unfold destroy. destruct p as [a|]; [|discriminate]. intros H. exists a. split; auto. intros o. unfold object_at. intros G.
      rewrite G, (proj2 (kind_eqb_eq k k) eq_refl) in H. discriminate.
  Qed.
  Lemma wrong_destroy m e a k : (forall o, ~ object_at m a k o) -> snd (mstep m e (Destroy k (Some a))) = AUndefined.
  Proof.
    unfold object_at. intros H. simpl. destruct (hget Nat.eqb a (mem_objects m)) as [[k' o]|]; auto.
    destruct (kind_eqb k k') eqn:E; auto. apply kind_eqb_eq in E as <-. exfalso. eapply H; reflexivity.
  Qed.
  Lemma last_error m e m1 r : ~ In 0%N (msg (w_error (mem_world m))) -> mstep m e GetLastError = (m1, r) ->
    handed e KString (Ok (OutText (msg (w_error (mem_world m))))) m m1 r.
  Proof.
    intros N E. cbn [M_Memory.mstep] in E. unfold get_last_error, point_to_string in E.
    destruct (existsb (N.eqb 0) (msg (w_error (mem_world m)))) eqn:Z.
    - exfalso. apply existsb_exists in Z as (c & I & Q). apply N.eqb_eq in Q. subst c. auto.
    - unfold allocate in E. inv E. cbn. auto.
  Qed.
End Memory.

(** The statements of Properties_Memory. *)
Lemma results_handed x js cs msg : (forall o s, js o = Ok s -> ~ In 0%N s) ->
  forall m e a en input s m1 r, client_at (mem_world m) a en false -> text input s ->
  (forall wl w' bl b' ia sa, texts wl w' -> texts bl b' ->
     (mstep x js cs msg m e (Call (RunParseWithAlternatives (Some a) input wl bl ia sa false)) = (m1, r) ->
      handed e KResult (let* v := parse_with_alternatives x (env_ord1 e) (env_ord2 e) en s w' b' ia sa in cs (OutParse v)) m m1 r) /\
     (mstep x js cs msg m e (Call (RunParseWithAlternatives (Some a) input wl bl ia sa true)) = (m1, r) ->
      handed e KString (let* v := parse_with_alternatives x (env_ord1 e) (env_ord2 e) en s w' b' ia sa in
                      let* t := js (OutParse v) in Ok (OutText t)) m m1 r)) /\
  (forall intent i sa, text intent i ->
     (mstep x js cs msg m e (Call (RunGetSlotsWithAlternatives (Some a) input intent sa false)) = (m1, r) ->
      handed e KSlots (let* v := get_slots_with_alternatives x en s i sa in cs (OutSlots v)) m m1 r) /\
     (mstep x js cs msg m e (Call (RunGetSlotsWithAlternatives (Some a) input intent sa true)) = (m1, r) ->
      handed e KString (let* v := get_slots_with_alternatives x en s i sa in let* t := js (OutSlots v) in Ok (OutText t)) m m1 r)) /\
  (mstep x js cs msg m e (Call (RunGetIntents (Some a) input false)) = (m1, r) ->
   handed e KIntents (let* v := get_intents (env_ord1 e) en s in cs (OutIntents v)) m m1 r) /\
  (mstep x js cs msg m e (Call (RunGetIntents (Some a) input true)) = (m1, r) ->
   handed e KString (let* v := get_intents (env_ord1 e) en s in let* t := js (OutIntents v) in Ok (OutText t)) m m1 r).
Proof.
  intros NZ m e a en input s m1 r C T. split; [|split; [|split]].
  - intros wl w' bl b' ia sa W B. split; apply handed_call; try reflexivity.
    + eapply parse_call; eauto. apply surjective_pairing.
    + eapply parse_json_call; eauto. apply surjective_pairing.
  - intros intent i sa I. split; apply handed_call; try reflexivity.
    + eapply slots_call; eauto. apply surjective_pairing.
    + eapply slots_json_call; eauto. apply surjective_pairing.
  - apply handed_call; try reflexivity. eapply intents_call; eauto. apply surjective_pairing.
  - apply handed_call; try reflexivity. eapply intents_json_call; eauto. apply surjective_pairing.
Qed.
Lemma texts_handed x js cs msg m e m1 r :
  (mstep x js cs msg m e (Call GetModelVersion) = (m1, r) -> handed e KString (Ok (OutText $"0.20.0")) m m1 r) /\
  (~ In 0%N (msg (w_error (mem_world m))) -> mstep x js cs msg m e GetLastError = (m1, r) ->
   handed e KString (Ok (OutText (msg (w_error (mem_world m))))) m m1 r).
Proof.
  split; [|apply last_error]. apply handed_call; [reflexivity|]. rewrite version_call. cbn. auto.
Qed.
Lemma memory_balance x js cs msg l m s : fresh_addresses x js cs msg empty_memory l -> mrun x js cs msg empty_memory l = (m, s) ->
  Permutation (given s) (taken_back l s ++ in_use m) /\ NoDup (in_use m).
Proof. intros F E. pose proof (balance x js cs msg l empty_memory (NoDup_nil _) F) as H. rewrite E in H. exact H. Qed.
Lemma destroying x js cs msg m e k a m1 r : mstep x js cs msg m e (Destroy k (Some a)) = (m1, r) ->
  (forall o, object_at m a k o ->
     r = AOk None /\ mem_world m1 = mem_world m /\ (forall k' o', ~ object_at m1 a k' o') /\
     forall b k' o', b <> a -> (object_at m1 b k' o' <-> object_at m b k' o')) /\
  ((forall o, ~ object_at m a k o) -> r = AUndefined).
Proof.
  intros E. split.
  - intros o H. eapply destroy_once; eauto.
  - intros H. pose proof (wrong_destroy x js cs msg m e a k H) as R. rewrite E in R. exact R.
Qed.
