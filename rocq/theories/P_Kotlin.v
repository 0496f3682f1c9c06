(** Lemmas about the Kotlin wrapper. *)
From Coq Require Import String List NArith ZArith Bool Arith Lia Permutation.
From Verif Require Import Base F32 M_Types M_Engine M_Filler M_Load S_Base S_Filler M_Ffi S_Ffi P_Base P_Encode P_Ffi
  M_Memory S_Memory P_Memory M_Wrap M_Python M_Kotlin M_Swift S_Wrap P_Wrap P_Python.
Import ListNotations.
Local Open Scope nat_scope.

Lemma kt_string_text s t : unicode s -> cut_at_zero s t -> text (kt_string s) t.
Proof.
  intros U C. unfold kt_string. assert (E : map (fun c => if is_scalar c then c else 63%N) s = s).
  { assert (H := unicode_scalar s U). clear -H. induction s as [|c s IH]; auto. cbn [forallb] in H. apply andb_prop in H as [A B].
    cbn [map]. rewrite A, IH; auto. }
  rewrite E. apply c_string_text; assumption.
Qed.
Lemma kt_list_texts l m : unicode_list l -> cut_list l m -> l <> Some [] -> texts (kt_list l) m.
Proof.
  intros U C N. destruct C as [|l m F]; [exact I|]. assert (H : Forall2 text (map kt_string l) m).
  { assert (V : forall s, In s l -> unicode s) by (intros s; apply (U l s eq_refl)). clear U N.
    induction F as [|s t l m Fs F IH]; constructor; [apply kt_string_text; [apply V; left; reflexivity|exact Fs]|].
    apply IH. intros s' I. apply V. right. exact I. }
  destruct l; [congruence|exact H].
Qed.
Lemma kt_int_count z n : int_count z n -> kt_int z = n.
Proof.
  unfold int_count, kt_int. intros [[A B]|[A B]].
  - rewrite Z.mod_small by lia. lia.
  - rewrite <- (Z.mod_unique z 4294967296 (-1) (z + 4294967296)); lia.
Qed.

Section Kotlin.
  Context (x : Ext) (js : output -> outcome str) (cs : output -> outcome output) (msg : option error -> str).
  Context (absolute_path : str -> str) {V : Type} (view : output -> option V).
  Notation ffi := (ffi x js cs msg).
  Notation ffi_ := (ffi_ x js cs msg).
  Notation parse_error := (parse_error x js cs msg).
  Notation kt_ask := (kt_ask x js cs msg).
  Hypothesis no_zero : forall o s, js o = Ok s -> ~ In 0%N s.
  Hypothesis msg_no_zero : forall e, ~ In 0%N (msg e).
  Variable es : meets.
  Hypothesis es_fresh : allocator es.

  Notation kt_why := (fun e => Some (msg (Some e))).
  Lemma error_raises i j m er : parse_error (es i) (es j) false (set_error m er) = (set_error m er, Raised (kt_why er)).
  Proof.
    unfold M_Kotlin.parse_error. erewrite pbind_value by (apply last_error_added; apply msg_no_zero). cbn beta iota.
    erewrite pbind_value by apply read_text_added. erewrite pbind_value by (apply destroy_added; apply es_fresh). reflexivity.
  Qed.
  Lemma kt_ask_ends {A} k (conv : output -> option A) c o m m' m1 r :
    ffi (es 0) (Call c) m = match o with
             | Ok v => (add m (env_address (es 0 m)) k v, Value (true, Some (env_address (es 0 m))))
             | Err er => (set_error m er, Value (false, None))
             | Panic => (m', Crashed)
             end ->
    kt_ask es k conv c m = (m1, r) -> converted conv k kt_why o m m1 r.
  Proof.
    intros F E. unfold M_Kotlin.kt_ask in E. destruct o as [v|er|]; cbn [converted].
    - rewrite (pbind_value _ _ _ _ _ F) in E. erewrite pbind_value in E by reflexivity. erewrite pbind_value in E by apply read_added.
      destruct (conv v) as [w|].
      + erewrite pbind_value in E by (apply destroy_added; apply es_fresh). inv E. split; [reflexivity|apply same_refl].
      + inv E. split; [reflexivity|]. split; [reflexivity|]. eexists. reflexivity.
    - rewrite (pbind_value _ _ _ _ _ F) in E. cbn beta iota in E. rewrite (pbind_raised _ _ _ _ _ (error_raises 1 2 m er)) in E.
      inv E. split; [reflexivity|apply same_set_error].
    - rewrite (pbind_crashed _ _ _ _ F) in E. inv E. reflexivity.
  Qed.
  Lemma kt_handed_ends {A} k (conv : output -> option A) c o m m1 r :
    (forall m1 s, mstep x js cs msg m (es 0 m) (Call c) = (m1, s) -> handed (es 0 m) k o m m1 s) ->
    kt_ask es k conv c m = (m1, r) -> converted conv k kt_why o m m1 r.
  Proof. intros H E. destruct (ffi_json x js cs msg es c k o m H) as (m' & F). eapply kt_ask_ends; eauto. Qed.
  Lemma converted_text {A} (o : outcome A) k m m1 r :
    converted text_of KString kt_why (let* v := o in let* t := js (k v) in Ok (OutText t)) m m1 r ->
    passed_on kt_why (let* v := o in js (k v)) m m1 r.
  Proof. destruct o as [v|e|]; cbn [bind]; auto. destruct (js (k v)); cbn [bind]; auto. Qed.

  Lemma kt_parse_ends m a en q q' wl wl' bl bl' ia ia' sa sa' m1 :
    client_at (mem_world m) a en false -> unicode q -> unicode_list wl -> unicode_list bl -> wl <> Some [] -> bl <> Some [] ->
    int_count ia ia' -> int_count sa sa' -> cut_at_zero q q' -> cut_list wl wl' -> cut_list bl bl' ->
    let result := parse_with_alternatives x (env_ord1 (es 0 m)) (env_ord2 (es 0 m)) en q' wl' bl' ia' sa' in
    (forall r, kt_parse x js cs msg view es (Some a) q wl bl ia sa m = (m1, r) ->
       converted view KResult kt_why (let* v := result in cs (OutParse v)) m m1 r) /\
    (forall r, kt_parse_json x js cs msg es (Some a) q wl bl ia sa m = (m1, r) ->
       passed_on kt_why (let* v := result in js (OutParse v)) m m1 r).
  Proof.
    intros C U UW UB NW NB Hi Hs Cq CW CB result. unfold result, kt_parse, kt_parse_json.
    rewrite (kt_int_count _ _ Hi), (kt_int_count _ _ Hs).
    pose proof (kt_list_texts _ _ UW CW NW) as TW. pose proof (kt_list_texts _ _ UB CB NB) as TB. split; intros r E.
    - eapply kt_handed_ends; [|exact E]. intros m2 s.
      destruct (results_handed x js cs msg no_zero m (es 0 m) a en _ q' m2 s C (kt_string_text q q' U Cq)) as (P & _).
      apply (P _ _ _ _ ia' sa' TW TB).
    - apply converted_text. eapply kt_handed_ends; [|exact E]. intros m2 s.
      destruct (results_handed x js cs msg no_zero m (es 0 m) a en _ q' m2 s C (kt_string_text q q' U Cq)) as (P & _).
      apply (P _ _ _ _ ia' sa' TW TB).
  Qed.
  Lemma kt_slots_ends m a en q q' i i' sa sa' m1 :
    client_at (mem_world m) a en false -> unicode q -> unicode i -> int_count sa sa' -> cut_at_zero q q' -> cut_at_zero i i' ->
    let result := get_slots_with_alternatives x en q' i' sa' in
    (forall r, kt_get_slots x js cs msg view es (Some a) q i sa m = (m1, r) ->
       converted view KSlots kt_why (let* v := result in cs (OutSlots v)) m m1 r) /\
    (forall r, kt_get_slots_json x js cs msg es (Some a) q i sa m = (m1, r) ->
       passed_on kt_why (let* v := result in js (OutSlots v)) m m1 r).
  Proof.
    intros C U Ui Hs Cq Ci result. unfold result, kt_get_slots, kt_get_slots_json. rewrite (kt_int_count _ _ Hs).
    pose proof (kt_string_text _ _ Ui Ci) as TI. split; intros r E.
    - eapply kt_handed_ends; [|exact E]. intros m2 s.
      destruct (results_handed x js cs msg no_zero m (es 0 m) a en _ q' m2 s C (kt_string_text q q' U Cq)) as (_ & P & _).
      apply (P _ _ sa' TI).
    - apply converted_text. eapply kt_handed_ends; [|exact E]. intros m2 s.
      destruct (results_handed x js cs msg no_zero m (es 0 m) a en _ q' m2 s C (kt_string_text q q' U Cq)) as (_ & P & _).
      apply (P _ _ sa' TI).
  Qed.
  Lemma kt_intents_ends m a en q q' m1 :
    client_at (mem_world m) a en false -> unicode q -> cut_at_zero q q' ->
    let result := get_intents (env_ord1 (es 0 m)) en q' in
    (forall r, kt_get_intents x js cs msg view es (Some a) q m = (m1, r) ->
       converted view KIntents kt_why (let* v := result in cs (OutIntents v)) m m1 r) /\
    (forall r, kt_get_intents_json x js cs msg es (Some a) q m = (m1, r) ->
       passed_on kt_why (let* v := result in js (OutIntents v)) m m1 r).
  Proof.
    intros C U Cq result. unfold result, kt_get_intents, kt_get_intents_json. split; intros r E.
    - eapply kt_handed_ends; [|exact E]. intros m2 s.
      destruct (results_handed x js cs msg no_zero m (es 0 m) a en _ q' m2 s C (kt_string_text q q' U Cq)) as (_ & _ & P & _). exact P.
    - apply converted_text. eapply kt_handed_ends; [|exact E]. intros m2 s.
      destruct (results_handed x js cs msg no_zero m (es 0 m) a en _ q' m2 s C (kt_string_text q q' U Cq)) as (_ & _ & _ & P). exact P.
  Qed.
  Lemma kt_version_ends m m1 r : kt_model_version x js cs msg es m = (m1, r) -> r = Value ($"0.20.0") /\ same_memory m m1.
  Proof.
    intros E. apply (kt_handed_ends KString text_of GetModelVersion (Ok (OutText $"0.20.0"))) in E; [exact E|].
    intros m2 s. apply (texts_handed x js cs msg m (es 0 m) m2 s).
  Qed.
  Lemma kt_create_ends c o m m1 r :
    (forall w s, step x js cs (mem_world m) (es 0 m) c = (w, s) ->
       match o with
       | Ok en => s = ROk (OutClient (env_address (es 0 m))) /\
                  w = mkWorld ((env_address (es 0 m), mkClient en false) :: w_clients (mem_world m)) (w_error (mem_world m))
       | Err er => s = RKo /\ w = mkWorld (w_clients (mem_world m)) (Some er)
       | Panic => s = RPanic /\ w = mem_world m
       end) -> allocates c = None ->
    kt_create x js cs msg es c m = (m1, r) -> engine_made kt_why o m m1 r.
  Proof.
    intros H A E. pose proof (create_cases x js cs msg (es 0) c o m H A) as F. unfold kt_create in E. destruct o as [en|er|]; cbn [engine_made].
    - rewrite (pbind_value _ _ _ _ _ F) in E. erewrite pbind_value in E by reflexivity. inv E.
      eexists. split; [reflexivity|]. split; [reflexivity|]. split; [apply es_fresh|reflexivity].
    - rewrite (pbind_value _ _ _ _ _ F) in E. cbn beta iota in E. rewrite (pbind_raised _ _ _ _ _ (error_raises 1 2 m er)) in E.
      inv E. split; [reflexivity|apply same_set_error].
    - rewrite (pbind_crashed _ _ _ _ F) in E. inv E. reflexivity.
  Qed.
  Lemma kt_file_ends f f' m m1 r : unicode (absolute_path f) -> cut_at_zero (absolute_path f) f' ->
    kt_new_file x js cs msg absolute_path es f m = (m1, r) -> engine_made kt_why (env_dir (es 0 m) f') m m1 r.
  Proof. intros U C E. eapply kt_create_ends; [| |exact E]; [|reflexivity]. apply create_dir_step. apply kt_string_text; assumption. Qed.
  Lemma kt_zip_ends d m m1 r : kt_new_zip x js cs msg es d m = (m1, r) -> engine_made kt_why (env_zip (es 0 m) d) m m1 r.
  Proof. intros E. eapply kt_create_ends; [| |exact E]; [|reflexivity]. apply create_zip_step. Qed.

  (** ** Programs *)
  Definition lost (ao : nat * (kind * output)) : Prop := fst (snd ao) <> KString /\ view (snd (snd ao)) = None.
  Definition kt_tidy {A} (r : Memory * ending A) (m : Memory) : Prop :=
    match r with
    | (m1, Value _) | (m1, Raised _) => clients m1 = clients m /\ exists l, mem_objects m1 = l ++ mem_objects m /\ Forall lost l
    | (_, Crashed) => True
    | (_, Broken) => False
    end.
  Lemma kt_ask_tidy {A} k (conv : output -> option A) c m : allocates c = Some k -> ~ misused (mem_world m) c ->
    (forall o, snd (step x js cs (mem_world m) (es 0 m) c) = ROk o -> conv o = None -> k <> KString /\ view o = None) ->
    kt_tidy (kt_ask es k conv c m) m.
  Proof.
    intros A0 U L. pose proof (call_fills x js cs msg es 0 c k m es_fresh A0 U) as F. unfold M_Kotlin.kt_ask.
    destruct (ffi (es 0) (Call c) m) as [m1 [[[] p]|w| |]] eqn:E; cbn [fills_kind] in F.
    - destruct F as (a & o & m0 & -> & N & -> & O & K & S). rewrite (pbind_value _ _ _ _ _ E). erewrite pbind_value by reflexivity.
      erewrite pbind_value by apply read_added. specialize (L o S). destruct (conv o) as [v|].
      + erewrite pbind_value by (apply destroy_added; exact N). cbn [kt_tidy ret]. split; [exact K|]. exists []. rewrite O. auto.
      + cbn [kt_tidy raise]. split; [exact K|]. exists [(a, (k, o))]. cbn [add mem_objects app]. rewrite O. split; [reflexivity|].
        repeat constructor; apply L; reflexivity.
    - destruct F as (-> & m0 & er & -> & O & K). rewrite (pbind_value _ _ _ _ _ E). cbn beta iota.
      rewrite (pbind_raised _ _ _ _ _ (error_raises 1 2 m0 er)). cbn [kt_tidy]. split; [exact K|]. exists []. split; [exact O|constructor].
    - contradiction.
    - rewrite (pbind_crashed _ _ _ _ E). exact I.
    - contradiction.
  Qed.
  Lemma text_kept o (P : Prop) : (exists t, o = OutText t) -> text_of o = None -> P.
  Proof. intros (t & ->). discriminate. Qed.
  Lemma tidy_bind {A B} (p : prog A) (f : A -> B) m : kt_tidy (p m) m -> kt_tidy ((let% a := p in ret (f a)) m) m.
  Proof. unfold pbind. destruct (p m) as [m1 [a|w| |]]; auto. Qed.
  Lemma kt_list_not l s : kt_list l = LData s -> ~ In CNull s.
  Proof.
    destruct l as [[|a l]|]; try discriminate. cbn [kt_list]. intros H. injection H as <-. intros I.
    apply (in_map_iff kt_string (a :: l)) in I as (t & I & _). discriminate.
  Qed.
  Lemma parse_used m a q wl bl ia sa j : In a (clients m) -> wl <> Some [] -> bl <> Some [] ->
    ~ misused (mem_world m) (RunParseWithAlternatives (Some a) (kt_string q) (kt_list wl) (kt_list bl) ia sa j).
  Proof.
    intros Ca W B [(a' & E & N)|[N|[(l & N & N')|N]]]; cbn [about lists In] in *.
    - injection E as <-. eapply hget_none_absent; eauto.
    - destruct N as [N|[N|[]]]; [destruct wl as [[|? ?]|]|destruct bl as [[|? ?]|]]; try discriminate; congruence.
    - destruct N as [N|[N|[]]]; eapply kt_list_not; eauto.
    - discriminate.
  Qed.

  Lemma step_about m n a o : kt_engine o = Some n -> (forall n, o <> KtClose n) -> In a (clients m) -> ~ empty_filter o ->
    kt_tidy (match o with
    | KtParse n i wl bl ia sa json =>
        if json then as_text (kt_parse_json x js cs msg es (Some a) i wl bl ia sa) else as_structure (kt_parse x js cs msg view es (Some a) i wl bl ia sa)
    | KtGetSlots n i intent sa json =>
        if json then as_text (kt_get_slots_json x js cs msg es (Some a) i intent sa) else as_structure (kt_get_slots x js cs msg view es (Some a) i intent sa)
    | KtGetIntents n i json =>
        if json then as_text (kt_get_intents_json x js cs msg es (Some a) i) else as_structure (kt_get_intents x js cs msg view es (Some a) i)
    | _ => ret KtNothing
    end m) m.
  Proof.
    intros E N C F. destruct o as [| | |n' i wl bl ia sa j|n' i intent sa j|n' i j|n']; cbn [kt_engine] in E; try discriminate.
    - cbn [empty_filter] in F. assert (W : wl <> Some []) by tauto. assert (B : bl <> Some []) by tauto.
      destruct j; apply tidy_bind; (apply kt_ask_tidy; [reflexivity|apply parse_used; assumption|]).
      + intros o S. eapply text_kept. eapply json_text; [|exact S]. reflexivity.
      + intros o _ H. split; [discriminate|exact H].
    - destruct j; apply tidy_bind; (apply kt_ask_tidy; [reflexivity|eapply client_used; [exact C|reflexivity|reflexivity|discriminate]|]).
      + intros o S. eapply text_kept. eapply json_text; [|exact S]. reflexivity.
      + intros o _ H. split; [discriminate|exact H].
    - destruct j; apply tidy_bind; (apply kt_ask_tidy; [reflexivity|eapply client_used; [exact C|reflexivity|reflexivity|discriminate]|]).
      + intros o S. eapply text_kept. eapply json_text; [|exact S]. reflexivity.
      + intros o _ H. split; [discriminate|exact H].
    - exfalso. eapply N. reflexivity.
  Qed.
  Lemma version_tidy m : kt_tidy (as_text (V := V) (kt_model_version x js cs msg es) m) m.
  Proof.
    apply (tidy_bind _ (fun s => KtText s)). apply kt_ask_tidy; [reflexivity| |].
    - intros [(a & H & _)|[H|[(l & H & _)|H]]]; try discriminate; destruct H.
    - intros o S. apply text_kept. rewrite version_call in S. inv S. eauto.
  Qed.
  Lemma kt_file_made f m : made (kt_new_file x js cs msg absolute_path es f m) m.
  Proof.
    destruct (kt_new_file x js cs msg absolute_path es f m) as [m1 r] eqn:E. unfold kt_new_file in E.
    set (s := map (fun c => if is_scalar c then c else 63%N) (absolute_path f)).
    assert (Us : forallb is_scalar s = true).
    { unfold s. clear. induction (absolute_path f) as [|c l IH]; auto. cbn [map forallb]. rewrite IH.
      destruct (is_scalar c) eqn:Ec; [rewrite Ec; reflexivity|reflexivity]. }
    eapply engine_made_made. eapply kt_create_ends; [| |exact E]; [|reflexivity]. apply create_dir_step.
    unfold kt_string. fold s. apply c_string_text; [apply scalar_unicode; exact Us|apply before_zero_cut].
  Qed.
  Lemma kt_zip_made d m : made (kt_new_zip x js cs msg es d m) m.
  Proof.
    destruct (kt_new_zip x js cs msg es d m) as [m1 r] eqn:E. eapply engine_made_made. eapply kt_zip_ends. exact E.
  Qed.
End Kotlin.

Section History.
  Context (x : Ext) (js : output -> outcome str) (cs : output -> outcome output) (msg : option error -> str).
  Context (absolute_path : str -> str) {V : Type} (view : output -> option V).
  Hypothesis msg_no_zero : forall e, ~ In 0%N (msg e).
  Notation kt_step := (kt_step x js cs msg absolute_path view).
  Notation kt_run := (kt_run x js cs msg absolute_path view).

  Definition still_open (C : list nat) (l : list (nat * cptr)) : list (nat * cptr) := filter (fun nc => negb (memb Nat.eqb (fst nc) C)) l.
  (** [C]: the engines closed so far. *)
  Definition kt_clean (C : list nat) (st : Kt) : Prop :=
    Forall (lost view) (mem_objects (kt_memory st)) /\ NoDup (clients (kt_memory st)) /\ NoDup (map fst (kt_engines st)) /\
    (forall n, In n (map fst (kt_engines st)) -> n < List.length (kt_engines st)) /\
    (forall n, In n C -> In n (map fst (kt_engines st))) /\
    Permutation (map Some (clients (kt_memory st))) (map snd (still_open C (kt_engines st))).
  Lemma memb_in n C : memb Nat.eqb n C = true <-> In n C.
  Proof. unfold memb. rewrite existsb_exists. split; [intros (m & I & E); apply Nat.eqb_eq in E; subst; exact I|intros I; exists n; rewrite Nat.eqb_refl; auto]. Qed.

  Lemma open_client C st n p : kt_clean C st -> hget Nat.eqb n (kt_engines st) = Some p -> ~ In n C -> exists a, p = Some a /\ In a (clients (kt_memory st)).
  Proof.
    intros (_ & _ & _ & _ & _ & P) H N. apply hget_In in H; [|exact Nat.eqb_eq].
    assert (I : In p (map snd (still_open C (kt_engines st)))).
    { apply in_map_iff. exists (n, p). split; auto. apply filter_In. split; auto. cbn [fst].
      destruct (memb Nat.eqb n C) eqn:E; auto. apply memb_in in E. contradiction. }
    eapply Permutation_in in I; [|apply Permutation_sym; exact P]. apply in_map_iff in I as (a & <- & I). eauto.
  Qed.
  Lemma clean_tidy {A} C st m1 (r : ending A) : kt_clean C st -> kt_tidy view (m1, r) (kt_memory st) ->
    r <> Broken /\ (r <> Crashed -> kt_clean C (mkKt m1 (kt_engines st))).
  Proof.
    intros (C1 & C2 & C3 & C4 & C5 & C6) T.
    assert (K : clients m1 = clients (kt_memory st) /\ (exists l, mem_objects m1 = l ++ mem_objects (kt_memory st) /\ Forall (lost view) l) ->
      kt_clean C (mkKt m1 (kt_engines st))).
    { intros (K1 & l & K2 & K3). unfold kt_clean. cbn [kt_memory kt_engines]. rewrite K1, K2.
      split; [apply Forall_app; auto|]. auto. }
    destruct r; cbn [kt_tidy] in T; split; try discriminate; try congruence; try contradiction; intros _; apply K; exact T.
  Qed.
  Lemma clean_plain C st (p : prog (@kt_value V)) st1 r : kt_clean C st -> kt_tidy view (p (kt_memory st)) (kt_memory st) -> kt_plain st p = (st1, r) ->
    r <> Broken /\ (r <> Crashed -> kt_clean C st1).
  Proof. unfold kt_plain. intros Cl T E. destruct (p (kt_memory st)) as [m1 r1]. inv E. eapply clean_tidy; eassumption. Qed.
  Lemma clean_new C st (p : prog cptr) st1 r : kt_clean C st -> made (p (kt_memory st)) (kt_memory st) ->
    kt_new (V := V) st p = (st1, r) -> r <> Broken /\ (r <> Crashed -> kt_clean C st1).
  Proof.
    intros (C1 & C2 & C3 & C4 & C5 & C6) M E. unfold kt_new in E.
    destruct (p (kt_memory st)) as [m1 [q|w| |]]; cbn [made] in M; inv E.
    - split; [discriminate|]. intros _. destruct M as (a & -> & M1 & M2 & M3). unfold kt_clean. cbn [kt_memory kt_engines map fst]. rewrite M1, M2.
      assert (Nn : ~ In (List.length (kt_engines st)) (map fst (kt_engines st))) by (intros I; apply C4 in I; lia).
      split; [exact C1|]. split; [constructor; auto; intros I; apply M3; unfold in_use; apply in_or_app; left; exact I|].
      split; [constructor; auto|]. split; [intros n [H|H]; cbn [List.length]; [lia|apply C4 in H; lia]|].
      split; [intros n H; right; auto|]. unfold still_open. cbn [filter fst].
      destruct (memb Nat.eqb (List.length (kt_engines st)) C) eqn:E; [apply memb_in in E; exfalso; auto|]. cbn [negb map snd].
      constructor. exact C6.
    - split; [discriminate|]. intros _. destruct M as [M1 M2]. unfold kt_clean. cbn [kt_memory kt_engines]. rewrite M1, M2. repeat (split; auto).
    - split; [discriminate|congruence].
    - contradiction.
  Qed.
  Lemma still_open_close n p C l : NoDup (map fst l) -> hget Nat.eqb n l = Some p -> ~ In n C ->
    Permutation (map snd (still_open C l)) (p :: map snd (still_open (n :: C) l)).
  Proof.
    unfold still_open. induction l as [|[k q] l IH]; [discriminate|]. cbn [hget map fst]. intros N H NC. inversion N as [|? ? Nk Nl]; subst.
    cbn [filter fst]. destruct (Nat.eqb_spec n k) as [<-|D].
    - injection H as ->. destruct (memb Nat.eqb n C) eqn:E; [apply memb_in in E; contradiction|].
      assert (E2 : memb Nat.eqb n (n :: C) = true) by (apply memb_in; left; reflexivity). rewrite E2. cbn [negb map snd].
      assert (F : filter (fun nc => negb (memb Nat.eqb (fst nc) (n :: C))) l = filter (fun nc => negb (memb Nat.eqb (fst nc) C)) l).
      { apply filter_ext_in. intros [k' q'] I. cbn [fst]. f_equal. unfold memb. cbn [existsb].
        assert (D : Nat.eqb k' n = false) by (apply Nat.eqb_neq; intros ->; apply Nk; apply in_map_iff; exists (n, q'); auto). rewrite D. reflexivity. }
      rewrite F. reflexivity.
    - assert (E2 : memb Nat.eqb k (n :: C) = memb Nat.eqb k C).
      { unfold memb. cbn [existsb]. assert (D2 : Nat.eqb k n = false) by (apply Nat.eqb_neq; auto). rewrite D2. reflexivity. }
      rewrite E2. specialize (IH Nl H NC). destruct (memb Nat.eqb k C); cbn [negb map snd]; auto.
      rewrite IH. apply perm_swap.
  Qed.

  Lemma kt_step_clean C st es o st1 r : allocator es -> kt_clean C st -> (forall n, kt_engine o = Some n -> ~ In n C) -> ~ empty_filter o ->
    kt_step st es o = (st1, r) ->
    r <> Broken /\ (r <> Crashed -> kt_clean (closed [(es, o)] [r] ++ C) st1).
  Proof.
    intros A Cl N F E.
    assert (About : (exists n, kt_engine o = Some n) -> (forall n, o <> KtClose n) -> r <> Broken /\ (r <> Crashed -> kt_clean C st1)).
    { intros (n & En) Nc. destruct (hget Nat.eqb n (kt_engines st)) as [p|] eqn:G.
      - destruct (open_client C st n p Cl G (N n En)) as (a & -> & I).
        pose proof (step_about x js cs msg absolute_path view msg_no_zero es A (kt_memory st) n a o En Nc I F) as T.
        destruct o as [| | |n' i wl bl ia sa j|n' i intent sa j|n' i j|n']; cbn [kt_engine] in En; try discriminate; injection En as ->;
          cbn [M_Kotlin.kt_step] in E; unfold kt_about in E; rewrite G in E.
        + eapply clean_plain; [exact Cl| |exact E]. exact T.
        + eapply clean_plain; [exact Cl| |exact E]. exact T.
        + eapply clean_plain; [exact Cl| |exact E]. exact T.
        + exfalso. eapply Nc. reflexivity.
      - assert (R : (st1, r) = (st, Raised None)).
        { rewrite <- E. destruct o; cbn [kt_engine] in En; try discriminate; injection En as ->;
          cbn [M_Kotlin.kt_step]; unfold kt_about; rewrite G; reflexivity. }
        inv R. split; [discriminate|auto]. }
    destruct o as [|f|d|n i wl bl ia sa j|n i intent sa j|n i j|n].
    - cbn [M_Kotlin.kt_step] in E. unfold kt_plain in E. pose proof (version_tidy x js cs msg view msg_no_zero es A (kt_memory st)) as T.
      destruct (as_text (kt_model_version x js cs msg es) (kt_memory st)) as [m1 r1]. inv E.
      replace (closed [(es, KtVersion)] [r] ++ C) with C by (destruct r; reflexivity). eapply clean_tidy; eassumption.
    - replace (closed [(es, KtNewFile f)] [r] ++ C) with C by (destruct r; reflexivity). eapply clean_new; [exact Cl| |exact E].
      apply kt_file_made; assumption.
    - replace (closed [(es, KtNewZip d)] [r] ++ C) with C by (destruct r; reflexivity). eapply clean_new; [exact Cl| |exact E].
      apply kt_zip_made; assumption.
    - replace (closed [(es, KtParse n i wl bl ia sa j)] [r] ++ C) with C by (destruct r; reflexivity). apply About; [eexists; reflexivity|discriminate].
    - replace (closed [(es, KtGetSlots n i intent sa j)] [r] ++ C) with C by (destruct r; reflexivity). apply About; [eexists; reflexivity|discriminate].
    - replace (closed [(es, KtGetIntents n i j)] [r] ++ C) with C by (destruct r; reflexivity). apply About; [eexists; reflexivity|discriminate].
    - clear About. cbn [M_Kotlin.kt_step] in E. unfold kt_about in E. destruct (hget Nat.eqb n (kt_engines st)) as [p|] eqn:G.
      + destruct (open_client C st n p Cl G (N n eq_refl)) as (a & -> & I). pose proof Cl as (C1 & C2 & C3 & C4 & C5 & C6).
        destruct (delete_client x js cs msg (es 0) (kt_memory st) a I C2) as (m1 & D & D1 & D2 & D3).
        unfold kt_plain, kt_close in E. rewrite (pbind_value _ _ _ _ _ D) in E. cbn [ret] in E. inv E. split; [discriminate|]. intros _.
        unfold kt_clean. cbn [closed app kt_memory kt_engines]. rewrite D1. repeat (split; auto).
        * intros k [<-|H]; auto. apply hget_In in G; [|exact Nat.eqb_eq]. apply in_map_iff. exists (n, Some a). auto.
        * apply (Permutation_cons_inv (a := Some a)).
          rewrite <- (still_open_close n (Some a) C (kt_engines st) C3 G (N n eq_refl)), <- C6, <- map_cons. apply Permutation_map. apply Permutation_sym. exact D2.
      + inv E. split; [discriminate|]. intros _. exact Cl.
  Qed.
  Lemma closed_cons C o r l (rs : list (ending (@kt_value V))) : forall n, In n (closed l rs ++ closed [o] [r] ++ C) <-> In n (closed (o :: l) (r :: rs) ++ C).
  Proof. intros n. destruct o as [e []], r; cbn [closed app]; rewrite ?in_app_iff; cbn [In app]; rewrite ?in_app_iff; tauto. Qed.
  Lemma still_open_ext C D l : (forall n, In n C <-> In n D) -> still_open C l = still_open D l.
  Proof.
    intros H. apply filter_ext. intros [k p]. cbn [fst]. f_equal. specialize (H k). rewrite <- !memb_in in H.
    destruct (memb Nat.eqb k C), (memb Nat.eqb k D); auto; [destruct H as [H _]; symmetry; apply H; reflexivity|destruct H as [_ H]; apply H; reflexivity].
  Qed.
  Lemma clean_ext C D st : (forall n, In n C <-> In n D) -> kt_clean C st -> kt_clean D st.
  Proof.
    intros H (C1 & C2 & C3 & C4 & C5 & C6). unfold kt_clean. rewrite <- (still_open_ext C D _ H).
    split; auto. split; auto. split; auto. split; auto. split; [|exact C6]. intros n I. apply C5. apply H. exact I.
  Qed.
  Lemma kt_run_clean l : forall C st st1 rs, (forall es o, In (es, o) l -> allocator es /\ ~ empty_filter o) -> no_use_after_close l ->
    (forall es o n, In (es, o) l -> kt_engine o = Some n -> ~ In n C) -> kt_clean C st ->
    kt_run st l = (st1, rs) -> ~ In Broken rs /\ (~ In Crashed rs -> kt_clean (closed l rs ++ C) st1).
  Proof.
    induction l as [|[es o] l IH]; intros C st st1 rs A U NC Cl E.
    - inv E. split; [intros []|]. intros _. exact Cl.
    - cbn [M_Kotlin.kt_run] in E. destruct (kt_step st es o) as [st2 r] eqn:S.
      destruct (A es o (or_introl eq_refl)) as [A1 A2].
      destruct (kt_step_clean C st es o st2 r A1 Cl (fun n H => NC es o n (or_introl eq_refl) H) A2 S) as [B K].
      assert (Rest : forall s st3, kt_run st2 l = (st3, s) -> r <> Crashed -> ~ In Broken s /\ (~ In Crashed s -> kt_clean (closed ((es, o) :: l) (r :: s) ++ C) st3)).
      { intros s st3 R NCr. specialize (IH (closed [(es, o)] [r] ++ C) st2 st3 s). destruct IH as [I1 I2].
        - intros e p I. apply A. right. exact I.
        - intros l1 e p l2 n e1 H Hn I. subst l. apply (U ((es, o) :: l1) e p l2 n e1 eq_refl Hn). right. exact I.
        - intros e p n I Hn J. apply in_app_iff in J as [J|J]; [|eapply NC; [right; exact I|exact Hn|exact J]].
          destruct o as [| | | | | |n0]; cbn [closed] in J; try (destruct r; contradiction).
          destruct r; cbn [closed In] in J; try contradiction. destruct J as [<-|[]].
          apply in_split in I as (l1 & l2 & ->). apply (U ((es, KtClose n0) :: l1) e p l2 n0 es eq_refl Hn). left. reflexivity.
        - apply K. exact NCr.
        - exact R.
        - split; [exact I1|]. intros H. eapply clean_ext; [|apply I2; exact H]. intros n. apply closed_cons. }
      destruct r as [v|w| |].
      + destruct (kt_run st2 l) as [st3 s] eqn:R. inv E. destruct (Rest s st1 eq_refl) as [R1 R2]; [discriminate|].
        split; [intros [H|H]; [discriminate|auto]|]. intros H. apply R2. intros I. apply H. right. exact I.
      + destruct (kt_run st2 l) as [st3 s] eqn:R. inv E. destruct (Rest s st1 eq_refl) as [R1 R2]; [discriminate|].
        split; [intros [H|H]; [discriminate|auto]|]. intros H. apply R2. intros I. apply H. right. exact I.
      + inv E. split; [intros [H|[]]; discriminate|]. intros H. exfalso. apply H. left. reflexivity.
      + congruence.
  Qed.
End History.

Lemma kt_program x js cs msg path {V} (view : output -> option V) : (forall e, ~ In 0%N (msg e)) ->
  forall l st rs, (forall es o, In (es, o) l -> allocator es /\ ~ empty_filter o) -> no_use_after_close l ->
  kt_run x js cs msg path view (mkKt empty_memory []) l = (st, rs) ->
  ~ In Broken rs /\
  (~ In Crashed rs ->
   (forall a k o, In (a, (k, o)) (mem_objects (kt_memory st)) -> k <> KString /\ view o = None) /\
   Permutation (map Some (clients (kt_memory st)))
     (map snd (filter (fun nc => negb (memb Nat.eqb (fst nc) (closed l rs))) (kt_engines st)))).
Proof.
  intros MZ l st rs A U E.
  destruct (kt_run_clean x js cs msg path view MZ l [] (mkKt empty_memory []) st rs A U) as [B C]; [auto| |exact E|].
  - unfold kt_clean. cbn. repeat split; try constructor; intros n [].
  - split; [exact B|]. intros N. destruct (C N) as (C1 & _ & _ & _ & _ & C6). rewrite app_nil_r in C6. split; [|exact C6].
    intros a k o I. eapply Forall_forall in C1; [|exact I]. exact C1.
Qed.

(** ** Misuse *)
Lemma kt_empty_filter x js cs msg {V} (view : output -> option V) m a en q wl bl ia sa es : client_at (mem_world m) a en false -> unicode q ->
  unicode_list wl -> wl = Some [] \/ bl = Some [] ->
  snd (kt_parse x js cs msg view es (Some a) q wl bl ia sa m) = Broken /\ snd (kt_parse_json x js cs msg es (Some a) q wl bl ia sa m) = Broken.
Proof.
  intros C U UW E.
  assert (B : forall j, snd (step x js cs (mem_world m) (es 0 m) (RunParseWithAlternatives (Some a) (kt_string q) (kt_list wl) (kt_list bl) (kt_int ia) (kt_int sa) j)) = RUndefined).
  { intros j. cbn [step]. unfold run_parse.
    assert (T : text (kt_string q) (before_zero q)) by (apply kt_string_text; [exact U|apply before_zero_cut]).
    rewrite (rust_string_text _ _ T). cbn [first]. unfold get_client. unfold client_at in C. rewrite C. cbn [locked].
    destruct (list_eq_dec (list_eq_dec N.eq_dec) (match wl with Some l => l | None => [] end) []) as [Z|Z].
    - destruct wl as [l|]; [subst l; reflexivity|]. destruct E as [E|E]; [discriminate|]. subst bl. reflexivity.
    - destruct wl as [l|]; [|contradiction Z; reflexivity]. destruct E as [E|E]; [injection E as E; contradiction|]. subst bl.
      assert (C2 : cut_list (Some l) (Some (map before_zero l))).
      { constructor. clear. induction l as [|s l IH]; constructor; [apply before_zero_cut|exact IH]. }
      assert (TW : texts (kt_list (Some l)) (Some (map before_zero l))) by (apply kt_list_texts; [exact UW|exact C2|intros H; injection H as H; contradiction]).
      rewrite (rust_strings_text _ _ TW). reflexivity. }
  split; unfold kt_parse, kt_parse_json, kt_ask, pbind, M_Wrap.ffi, mstep, mcall.
  - specialize (B false). destruct (step _ _ _ _ _ _) as [w s]. cbn [snd] in B. subst s. reflexivity.
  - specialize (B true). destruct (step _ _ _ _ _ _) as [w s]. cbn [snd] in B. subst s. reflexivity.
Qed.
Lemma kt_after_close x js cs msg {V} (view : output -> option V) m m1 a es es' : kt_close x js cs msg es (Some a) m = (m1, Value tt) ->
  snd (kt_close x js cs msg es' (Some a) m1) = Broken /\
  (forall q wl bl ia sa, unicode q ->
     snd (kt_parse x js cs msg view es' (Some a) q wl bl ia sa m1) = Broken /\
     snd (kt_parse_json x js cs msg es' (Some a) q wl bl ia sa m1) = Broken) /\
  (forall q i sa, unicode q -> unicode i ->
     snd (kt_get_slots x js cs msg view es' (Some a) q i sa m1) = Broken /\
     snd (kt_get_slots_json x js cs msg es' (Some a) q i sa m1) = Broken) /\
  (forall q, unicode q ->
     snd (kt_get_intents x js cs msg view es' (Some a) q m1) = Broken /\
     snd (kt_get_intents_json x js cs msg es' (Some a) q m1) = Broken).
Proof.
  intros E. assert (G : hget Nat.eqb a (w_clients (mem_world m1)) = None).
  { unfold kt_close, M_Wrap.ffi_, M_Wrap.ffi, mstep, mcall, pbind in E. cbn [step] in E. unfold destroy_client in E.
    destruct (hget Nat.eqb a (w_clients (mem_world m))) as [c|]; cbn in E; inv E. cbn [mem_world w_clients]. apply without_gone. }
  assert (T : forall q, unicode q -> text (kt_string q) (before_zero q)) by (intros q U; apply kt_string_text; [exact U|apply before_zero_cut]).
  split; [|split; [|split]].
  - unfold kt_close, M_Wrap.ffi_, M_Wrap.ffi, mstep, mcall, pbind. cbn [step]. unfold destroy_client. rewrite G. reflexivity.
  - intros q wl bl ia sa U. split; unfold kt_parse, kt_parse_json, kt_ask, pbind, M_Wrap.ffi, mstep, mcall; cbn [step]; unfold run_parse;
      rewrite (rust_string_text _ _ (T _ U)); cbn [first]; unfold get_client; rewrite G; reflexivity.
  - intros q i sa U Ui. split; unfold kt_get_slots, kt_get_slots_json, kt_ask, pbind, M_Wrap.ffi, mstep, mcall; cbn [step]; unfold run_get_slots;
      rewrite (rust_string_text _ _ (T _ U)), (rust_string_text _ _ (T _ Ui)); cbn [first]; unfold get_client; rewrite G; reflexivity.
  - intros q U. split; unfold kt_get_intents, kt_get_intents_json, kt_ask, pbind, M_Wrap.ffi, mstep, mcall; cbn [step]; unfold run_get_intents;
      rewrite (rust_string_text _ _ (T _ U)); cbn [first]; unfold get_client; rewrite G; reflexivity.
Qed.
Lemma kt_created x js cs msg path : (forall e, ~ In 0%N (msg e)) -> forall es, allocator es -> forall m m1 r,
  (forall f f', unicode (path f) -> cut_at_zero (path f) f' -> kt_new_file x js cs msg path es f m = (m1, r) ->
     engine_made (fun e => Some (msg (Some e))) (env_dir (es 0 m) f') m m1 r) /\
  (forall d, kt_new_zip x js cs msg es d m = (m1, r) -> engine_made (fun e => Some (msg (Some e))) (env_zip (es 0 m) d) m m1 r).
Proof. intros M es A m m1 r. split; intros; [eapply kt_file_ends|eapply kt_zip_ends]; eauto. Qed.
