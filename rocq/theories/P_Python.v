(** Lemmas about the Python wrapper. *)
From Coq Require Import String List NArith ZArith Bool Arith Lia Permutation.
From Verif Require Import Base F32 M_Types M_Engine M_Filler M_Load S_Base S_Filler M_Ffi S_Ffi P_Base P_Encode P_Ffi
  M_Memory S_Memory P_Memory M_Wrap S_Wrap P_Wrap M_Python.
Import ListNotations.
Local Open Scope nat_scope.

Lemma py_encode_ok s m : unicode s -> py_encode s m = (m, Value (utf8_encode s)).
Proof. intros U. unfold py_encode. rewrite unicode_scalar by exact U. reflexivity. Qed.
Lemma py_uint_ok z m : uint32 z -> py_uint z m = (m, Value (Z.to_nat z)).
Proof.
  intros U. unfold uint32 in U. unfold py_uint. rewrite (proj2 (Z.leb_le _ _)) by lia. rewrite (proj2 (Z.ltb_lt _ _)) by lia.
  rewrite Z.mod_small by lia. reflexivity.
Qed.
Lemma py_encode_all_ok l t m : (forall s, In s l -> unicode s) -> Forall2 cut_at_zero l t ->
  exists v, py_encode_all l m = (m, Value v) /\ Forall2 text v t.
Proof.
  intros U F. induction F as [|s s' l t C F IH]; [exists []; split; [reflexivity|constructor]|].
  destruct IH as (v & E & T); [intros s0 I; apply U; right; exact I|].
  exists (c_string (utf8_encode s) :: v). split.
  - simpl. unfold pbind at 1. rewrite py_encode_ok by (apply U; left; reflexivity). unfold pbind. rewrite E. reflexivity.
  - constructor; auto. apply c_string_text; auto. apply U. left. reflexivity.
Qed.
Lemma py_list_ok o o' m : unicode_list o -> cut_list o o' -> exists v, py_list o m = (m, Value v) /\ texts v o'.
Proof.
  intros U C. destruct C as [|l t F]; [exists LNull; split; [reflexivity|exact I]|].
  destruct (py_encode_all_ok l t m) as (v & E & T); [intros s I; eapply U; eauto|exact F|].
  exists (LData v). split; [|exact T]. simpl. unfold pbind. rewrite E. reflexivity.
Qed.
(** Only the values depend on the texts. *)
Lemma py_encode_all_cases l m : (exists v, py_encode_all l m = (m, Value v) /\ ~ In CNull v) \/ py_encode_all l m = (m, Raised None).
Proof.
  induction l as [|s l IH]; [left; exists []; split; [reflexivity|intros []]|]. cbn [py_encode_all]. unfold pbind, py_encode.
  destruct (forallb is_scalar s); [|right; reflexivity]. unfold ret at 1 3. destruct IH as [(v & -> & N)| ->]; [left|right; reflexivity].
  eexists. split; [reflexivity|]. intros [H|H]; [discriminate|auto].
Qed.
Lemma py_list_cases o m : (exists v, py_list o m = (m, Value v) /\ v <> LNoData /\ forall l, v = LData l -> ~ In CNull l) \/
  py_list o m = (m, Raised None).
Proof.
  destruct o as [l|].
  - simpl. unfold pbind. destruct (py_encode_all_cases l m) as [(v & -> & N)| ->]; [left|right; reflexivity].
    eexists. split; [reflexivity|]. split; [discriminate|]. intros l' H. injection H as <-. exact N.
  - left. exists LNull. split; [reflexivity|]. split; discriminate.
Qed.

Section Python.
  Context (x : Ext) (js : output -> outcome str) (cs : output -> outcome output) (msg : option error -> str).
  Context (path_text : str -> str) (symbol : bool).
  Notation ffi := (ffi x js cs msg).
  Notation ffi_ := (ffi_ x js cs msg).
  Notation string_pointer := (string_pointer x js cs msg).
  Notation check_ffi_error := (check_ffi_error x js cs msg symbol).
  Hypothesis no_zero : forall o s, js o = Ok s -> ~ In 0%N s.
  Hypothesis msg_no_zero : forall e, ~ In 0%N (msg e).
  Context (es : meets).
  Hypothesis es_fresh : allocator es.
  (** What the exception says. *)
  Notation py_why := (python_message msg symbol).

  Lemma pointer_value {A} e fill (use : bool -> cptr -> prog A) m m1 c p : fill m = (m1, Value (c, p)) ->
    string_pointer e fill use m = finally (use c p) (ffi_ e (Destroy KString p)) m1.
  Proof. unfold M_Python.string_pointer. intros ->. reflexivity. Qed.
  Lemma pointer_raised {A} e fill (use : bool -> cptr -> prog A) m m1 w : fill m = (m1, Raised w) ->
    string_pointer e fill use m = (set_error m1 EOther, Raised w).
  Proof. unfold M_Python.string_pointer. intros ->. reflexivity. Qed.
  Lemma pointer_crashed {A} e fill (use : bool -> cptr -> prog A) m m1 : fill m = (m1, Crashed) ->
    string_pointer e fill use m = (m1, Crashed).
  Proof. unfold M_Python.string_pointer. intros ->. reflexivity. Qed.

  Lemma check_raises i j m er : exists m1, check_ffi_error (es i) (es j) false (set_error m er) = (m1, Raised (py_why er)) /\ same_memory m m1.
  Proof.
    unfold M_Python.check_ffi_error, python_message. destruct symbol.
    - exists (set_error m er). split; [|apply same_set_error].
      erewrite pbind_value; [reflexivity|]. erewrite pointer_value by (apply last_error_added; apply msg_no_zero).
      eapply finally_value; [erewrite pbind_value by apply read_text_added; reflexivity|]. apply destroy_added. apply es_fresh.
    - exists (set_error (set_error m er) EOther). split; [reflexivity|]. split; reflexivity.
  Qed.

  Lemma ask_ends fill m m' o m1 r :
    fill m = match o with
             | Ok t => (add m (env_address (es 0 m)) KString (OutText t), Value (true, Some (env_address (es 0 m))))
             | Err er => (set_error m er, Value (false, None))
             | Panic => (m', Crashed)
             end ->
    string_pointer (es 3) fill (fun code ptr => let% _ := check_ffi_error (es 1) (es 2) code in read_text ptr) m = (m1, r) ->
    passed_on py_why o m m1 r.
  Proof.
    intros F E. destruct o as [t|er|]; cbn [passed_on].
    - rewrite (pointer_value _ _ _ _ _ _ _ F) in E. rewrite (finally_value _ _ _ (add m (env_address (es 0 m)) KString (OutText t)) m t) in E.
      + inv E. split; [reflexivity|apply same_refl].
      + erewrite pbind_value by reflexivity. apply read_text_added.
      + apply destroy_added. apply es_fresh.
    - rewrite (pointer_value _ _ _ _ _ _ _ F) in E. destruct (check_raises 1 2 m er) as (m2 & C & S). rewrite (finally_raised _ _ _ m2 (set_error m2 EOther) (py_why er)) in E.
      + inv E. split; [reflexivity|]. destruct S as [S1 S2]. split; [exact S1|exact S2].
      + erewrite pbind_raised by exact C. reflexivity.
      + apply destroy_nothing.
    - rewrite (pointer_crashed _ _ _ _ _ F) in E. inv E. reflexivity.
  Qed.

  Lemma ffi_json c k o m : (forall m1 s, mstep x js cs msg m (es 0 m) (Call c) = (m1, s) -> handed (es 0 m) k o m m1 s) ->
    exists m', ffi (es 0) (Call c) m = match o with
                | Ok v => (add m (env_address (es 0 m)) k v, Value (true, Some (env_address (es 0 m))))
                | Err er => (set_error m er, Value (false, None))
                | Panic => (m', Crashed)
                end.
  Proof.
    intros H. destruct (mstep x js cs msg m (es 0 m) (Call c)) as [m1 s] eqn:E. exists m1. eapply ffi_handed; eauto.
  Qed.
  Lemma json_outcome {A} (o : outcome A) k m m' a p q :
    match (let* v := o in let* t := js (k v) in Ok (OutText t)) with
    | Ok v => (add m a KString v, p) | Err er => (set_error m er, q) | Panic => (m', @Crashed (bool * cptr)) end =
    match (let* v := o in js (k v)) with
    | Ok t => (add m a KString (OutText t), p) | Err er => (set_error m er, q) | Panic => (m', Crashed) end.
  Proof. destruct o as [v|e|]; cbn [bind]; auto. destruct (js (k v)); reflexivity. Qed.

  (** ** Requests *)
  Lemma py_parse_ends m a en q q' wl wl' bl bl' ia sa m1 r :
    client_at (mem_world m) a en false -> unicode q -> unicode_list wl -> unicode_list bl -> uint32 ia -> uint32 sa ->
    cut_at_zero q q' -> cut_list wl wl' -> cut_list bl bl' ->
    py_parse x js cs msg symbol es (Some a) q wl bl ia sa m = (m1, r) ->
    passed_on py_why (let* v := parse_with_alternatives x (env_ord1 (es 0 m)) (env_ord2 (es 0 m)) en q' wl' bl' (Z.to_nat ia) (Z.to_nat sa) in
                      js (OutParse v)) m m1 r.
  Proof.
    intros C U UW UB Hi Hs Cq CW CB E. unfold py_parse in E.
    destruct (py_list_ok wl wl' m UW CW) as (vw & Ew & Tw). destruct (py_list_ok bl bl' m UB CB) as (vb & Eb & Tb).
    rewrite (pbind_value _ _ _ _ _ Ew), (pbind_value _ _ _ _ _ Eb) in E.
    destruct (ffi_json (RunParseWithAlternatives (Some a) (c_string (utf8_encode q)) vw vb (Z.to_nat ia) (Z.to_nat sa) true) KString
               (let* v := parse_with_alternatives x (env_ord1 (es 0 m)) (env_ord2 (es 0 m)) en q' wl' bl' (Z.to_nat ia) (Z.to_nat sa) in
                let* t := js (OutParse v) in Ok (OutText t)) m) as (m' & F).
    { intros m2 s H. destruct (results_handed x js cs msg no_zero m (es 0 m) a en _ q' m2 s C (c_string_text q q' U Cq)) as (P & _).
      eapply P; eauto. }
    rewrite json_outcome in F. eapply ask_ends; [|exact E].
    rewrite (pbind_value _ _ _ _ _ (py_encode_ok q m U)), (pbind_value _ _ _ _ _ (py_uint_ok ia m Hi)), (pbind_value _ _ _ _ _ (py_uint_ok sa m Hs)).
    exact F.
  Qed.
  Lemma py_slots_ends m a en q q' i i' sa m1 r :
    client_at (mem_world m) a en false -> unicode q -> unicode i -> uint32 sa -> cut_at_zero q q' -> cut_at_zero i i' ->
    py_get_slots x js cs msg symbol es (Some a) q i sa m = (m1, r) ->
    passed_on py_why (let* v := get_slots_with_alternatives x en q' i' (Z.to_nat sa) in js (OutSlots v)) m m1 r.
  Proof.
    intros C U Ui Hs Cq Ci E. unfold py_get_slots in E.
    destruct (ffi_json (RunGetSlotsWithAlternatives (Some a) (c_string (utf8_encode q)) (c_string (utf8_encode i)) (Z.to_nat sa) true) KString
               (let* v := get_slots_with_alternatives x en q' i' (Z.to_nat sa) in let* t := js (OutSlots v) in Ok (OutText t)) m) as (m' & F).
    { intros m2 s H. destruct (results_handed x js cs msg no_zero m (es 0 m) a en _ q' m2 s C (c_string_text q q' U Cq)) as (_ & P & _).
      eapply P; eauto. apply c_string_text; assumption. }
    rewrite json_outcome in F. eapply ask_ends; [|exact E].
    rewrite (pbind_value _ _ _ _ _ (py_encode_ok q m U)), (pbind_value _ _ _ _ _ (py_encode_ok i m Ui)), (pbind_value _ _ _ _ _ (py_uint_ok sa m Hs)).
    exact F.
  Qed.
  Lemma py_intents_ends m a en q q' m1 r :
    client_at (mem_world m) a en false -> unicode q -> cut_at_zero q q' ->
    py_get_intents x js cs msg symbol es (Some a) q m = (m1, r) ->
    passed_on py_why (let* v := get_intents (env_ord1 (es 0 m)) en q' in js (OutIntents v)) m m1 r.
  Proof.
    intros C U Cq E. unfold py_get_intents in E.
    destruct (ffi_json (RunGetIntents (Some a) (c_string (utf8_encode q)) true) KString
               (let* v := get_intents (env_ord1 (es 0 m)) en q' in let* t := js (OutIntents v) in Ok (OutText t)) m) as (m' & F).
    { intros m2 s H. destruct (results_handed x js cs msg no_zero m (es 0 m) a en _ q' m2 s C (c_string_text q q' U Cq)) as (_ & _ & _ & P).
      eapply P; eauto. }
    rewrite json_outcome in F. eapply ask_ends; [|exact E]. rewrite (pbind_value _ _ _ _ _ (py_encode_ok q m U)). exact F.
  Qed.

  (** ** Creation *)
  Lemma create_ends c o m m1 r :
    (forall w s, step x js cs (mem_world m) (es 0 m) c = (w, s) ->
       match o with
       | Ok en => s = ROk (OutClient (env_address (es 0 m))) /\
                  w = mkWorld ((env_address (es 0 m), mkClient en false) :: w_clients (mem_world m)) (w_error (mem_world m))
       | Err er => s = RKo /\ w = mkWorld (w_clients (mem_world m)) (Some er)
       | Panic => s = RPanic /\ w = mem_world m
       end) -> allocates c = None ->
    on_raise (let% (code, p) := ffi (es 0) (Call c) in let% _ := check_ffi_error (es 1) (es 2) code in ret p)
      (py_del x js cs msg (es 3) None) m = (m1, r) ->
    engine_made py_why o m m1 r.
  Proof.
    intros H A E. unfold on_raise in E. destruct (step x js cs (mem_world m) (es 0 m) c) as [w s] eqn:S.
    specialize (H w s eq_refl).
    assert (F : ffi (es 0) (Call c) m = match o with
       | Ok en => (mkMem w (mem_objects m), Value (true, Some (env_address (es 0 m))))
       | Err er => (set_error m er, Value (false, None))
       | Panic => (m, Crashed) end).
    { unfold M_Wrap.ffi, mstep, mcall. rewrite S, A. destruct o as [en|er|]; destruct H as [-> ->]; try reflexivity.
      destruct m; reflexivity. }
    destruct o as [en|er|]; cbn [engine_made].
    - destruct H as [-> ->]. rewrite (pbind_value _ _ _ _ _ F) in E. erewrite pbind_value in E by reflexivity. inv E.
      eexists. split; [reflexivity|]. split; [reflexivity|]. split; [apply es_fresh|reflexivity].
    - rewrite (pbind_value _ _ _ _ _ F) in E. destruct (check_raises 1 2 m er) as (m2 & C & Sm). erewrite pbind_raised in E by exact C.
      inv E. split; [reflexivity|]. destruct Sm as [S1 S2]. split; [exact S1|exact S2].
    - rewrite (pbind_crashed _ _ _ _ F) in E. inv E. reflexivity.
  Qed.
  Lemma py_init_dir_ends d d' b m m1 r : unicode (path_text d) -> cut_at_zero (path_text d) d' ->
    py_init x js cs msg path_text symbol es (Some d) b m = (m1, r) ->
    engine_made py_why (env_dir (es 0 m) d') m m1 r.
  Proof.
    intros U C E. unfold py_init in E. eapply create_ends with (c := CreateFromDir (c_string (utf8_encode (path_text d)))); [|reflexivity|].
    - intros w s S. pose proof (c_string_text _ _ U C) as T. cbn [step] in S. unfold new_client in S. rewrite (rust_string_text _ _ T) in S.
      cbn [abind] in S. destruct (env_dir (es 0 m) d') as [en|er|]; cbn [first wrap] in S; inv S; auto.
    - rewrite <- E. unfold on_raise. rewrite (pbind_value _ _ _ _ _ (py_encode_ok _ m U)). reflexivity.
  Qed.
  Lemma py_init_bytes_ends b m m1 r : py_init x js cs msg path_text symbol es None (Some b) m = (m1, r) ->
    engine_made py_why (env_zip (es 0 m) b) m m1 r.
  Proof.
    intros E. unfold py_init in E. eapply create_ends with (c := CreateFromZip (Some b)); [|reflexivity|exact E].
    intros w s S. cbn [step] in S. unfold new_client in S. cbn [rust_bytes abind] in S.
    destruct (env_zip (es 0 m) b) as [en|er|]; cbn [first wrap] in S; inv S; auto.
  Qed.

  (** ** Programs leave nothing behind *)
  (** Objects and clients are as before, unless the process has crashed. *)
  Definition tidy {A} (r : Memory * ending A) (m : Memory) : Prop :=
    match r with
    | (m1, Value _) | (m1, Raised _) => mem_objects m1 = mem_objects m /\ clients m1 = clients m
    | (_, Crashed) => True
    | (_, Broken) => False
    end.
  Definition fills (r : Memory * ending (bool * cptr)) (m : Memory) : Prop :=
    match r with
    | (m1, Value (true, p)) => exists a t m0, p = Some a /\ ~ In a (in_use m0) /\ m1 = add m0 a KString (OutText t) /\
                                 mem_objects m0 = mem_objects m /\ clients m0 = clients m
    | (m1, Value (false, p)) => p = None /\ (exists m0 er, m1 = set_error m0 er /\ mem_objects m0 = mem_objects m /\ clients m0 = clients m)
    | (m1, Raised _) => mem_objects m1 = mem_objects m /\ clients m1 = clients m
    | (_, Crashed) => True
    | (_, Broken) => False
    end.
  Lemma same_tidy m0 m1 m : same_memory m0 m1 -> mem_objects m0 = mem_objects m -> clients m0 = clients m ->
    mem_objects m1 = mem_objects m /\ clients m1 = clients m.
  Proof. unfold clients. intros [A B] C D. rewrite A, B. auto. Qed.
  Lemma ask_tidy fill m : fills (fill m) m ->
    tidy (string_pointer (es 3) fill (fun code ptr => let% _ := check_ffi_error (es 1) (es 2) code in read_text ptr) m) m.
  Proof.
    intros H. destruct (fill m) as [m1 [[[] p]|w| |]] eqn:F; cbn [fills] in H.
    - destruct H as (a & t & m0 & -> & N & -> & O & K). rewrite (pointer_value _ _ _ _ _ _ _ F).
      rewrite (finally_value _ _ _ (add m0 a KString (OutText t)) m0 t).
      + cbn. auto.
      + erewrite pbind_value by reflexivity. apply read_text_added.
      + apply destroy_added. exact N.
    - destruct H as (-> & m0 & er & -> & O & K). rewrite (pointer_value _ _ _ _ _ _ _ F).
      destruct (check_raises 1 2 m0 er) as (m2 & C & S).
      rewrite (finally_raised _ _ _ m2 (set_error m2 EOther) (py_why er)).
      + cbn [tidy]. eapply same_tidy in S; eauto.
      + erewrite pbind_raised by exact C. reflexivity.
      + apply destroy_nothing.
    - rewrite (pointer_raised _ _ _ _ _ _ F). exact H.
    - rewrite (pointer_crashed _ _ _ _ _ F). exact I.
    - contradiction.
  Qed.

  Lemma json_fills i c m : gives_json c -> ~ misused (mem_world m) c -> fills (ffi (es i) (Call c) m) m.
  Proof.
    intros J U. unfold M_Wrap.ffi, mstep, mcall.
    pose proof (undefined_only x js cs (mem_world m) (es i m) c) as D. pose proof (json_text x js cs (mem_world m) (es i m) c) as T.
    assert (A : allocates c = Some KString) by (destruct c; cbn [gives_json] in J; try contradiction; subst json; reflexivity).
    assert (K : keys (fst (step x js cs (mem_world m) (es i m) c)) = keys (mem_world m)).
    { pose proof (step_keys x js cs (mem_world m) (es i m) c) as K. rewrite A in K. apply K; auto. intros p ->. contradiction. }
    destruct (step x js cs (mem_world m) (es i m) c) as [w s] eqn:S. cbn [fst snd] in *. rewrite A.
    destruct s as [o| | |]; cbn [allocate fills].
    - destruct (T o J eq_refl) as (t & ->). exists (env_address (es i m)), t, (mkMem w (mem_objects m)).
      assert (U2 : in_use (mkMem w (mem_objects m)) = in_use m) by (unfold in_use; cbn [mem_world mem_objects]; unfold keys in K; rewrite K; reflexivity).
      rewrite U2. split; [reflexivity|]. split; [apply es_fresh|]. split; [reflexivity|]. split; [reflexivity|exact K].
    - split; [reflexivity|]. pose proof (error_recorded x js cs (mem_world m) (es i m) c) as R. rewrite S in R. cbn [fst snd] in R.
      destruct R as (er & R). exists (mkMem w (mem_objects m)), er. split; [|split; [reflexivity|exact K]].
      unfold set_error. cbn [mem_world mem_objects]. rewrite <- R. destruct w; reflexivity.
    - exact I.
    - apply U. apply D. reflexivity.
  Qed.
  Lemma fills_bind {A} (p : prog A) k m : (forall a, p m = (m, Value a) -> fills (k a m) m) -> (exists a, p m = (m, Value a)) \/ (exists w, p m = (m, Raised w)) ->
    fills ((let% a := p in k a) m) m.
  Proof.
    intros H [(a & E)|(w & E)].
    - rewrite (pbind_value _ _ _ _ _ E). apply H. exact E.
    - rewrite (pbind_raised _ _ _ _ _ E). cbn. auto.
  Qed.
  Lemma encode_cases s m : (exists a, py_encode s m = (m, Value a)) \/ exists w, py_encode s m = (m, Raised w).
  Proof. unfold py_encode. destruct (forallb is_scalar s); [left|right]; eexists; reflexivity. Qed.
  Lemma uint_cases z m : (exists a, py_uint z m = (m, Value a)) \/ exists w, py_uint z m = (m, Raised w).
  Proof. unfold py_uint. destruct (_ && _); [left|right]; eexists; reflexivity. Qed.

  Lemma parse_tidy m a q wl bl ia sa : In a (clients m) -> tidy (py_parse x js cs msg symbol es (Some a) q wl bl ia sa m) m.
  Proof.
    intros Ca. unfold py_parse.
    destruct (py_list_cases wl m) as [(vw & Ew & W1 & W2)|Ew]; [|rewrite (pbind_raised _ _ _ _ _ Ew); cbn; auto].
    rewrite (pbind_value _ _ _ _ _ Ew).
    destruct (py_list_cases bl m) as [(vb & Eb & B1 & B2)|Eb]; [|rewrite (pbind_raised _ _ _ _ _ Eb); cbn; auto].
    rewrite (pbind_value _ _ _ _ _ Eb). apply ask_tidy.
    apply fills_bind; [|apply encode_cases]. intros b _. apply fills_bind; [|apply uint_cases]. intros n _.
    apply fills_bind; [|apply uint_cases]. intros k _. apply json_fills; [reflexivity|].
    intros [(a' & E & N)|[N|[(l & N & N')|N]]]; cbn [about lists In] in *.
    - injection E as <-. eapply hget_none_absent; eauto.
    - destruct N as [N|[N|[]]]; auto.
    - destruct N as [N|[N|[]]]; [apply (W2 l)|apply (B2 l)]; auto.
    - discriminate.
  Qed.
  Lemma client_used m a c : In a (clients m) -> about c = Some a -> lists c = [] -> c <> CreateFromZip None -> ~ misused (mem_world m) c.
  Proof.
    intros Ca A L Z [(a' & E & N)|[N|[(l & N & _)|N]]].
    - rewrite A in E. injection E as <-. eapply hget_none_absent; eauto.
    - rewrite L in N. exact N.
    - rewrite L in N. exact N.
    - contradiction.
  Qed.
  Lemma slots_tidy m a q i sa : In a (clients m) -> tidy (py_get_slots x js cs msg symbol es (Some a) q i sa m) m.
  Proof.
    intros Ca. unfold py_get_slots. apply ask_tidy. apply fills_bind; [|apply encode_cases]. intros b _.
    apply fills_bind; [|apply encode_cases]. intros b' _. apply fills_bind; [|apply uint_cases]. intros n _.
    apply json_fills; [reflexivity|]. eapply client_used; [exact Ca|reflexivity|reflexivity|discriminate].
  Qed.
  Lemma intents_tidy m a q : In a (clients m) -> tidy (py_get_intents x js cs msg symbol es (Some a) q m) m.
  Proof.
    intros Ca. unfold py_get_intents. apply ask_tidy. apply fills_bind; [|apply encode_cases]. intros b _.
    apply json_fills; [reflexivity|]. eapply client_used; [exact Ca|reflexivity|reflexivity|discriminate].
  Qed.

  (** A new client, or nothing. *)
  Definition made (r : Memory * ending cptr) (m : Memory) : Prop :=
    match r with
    | (m1, Value p) => exists a, p = Some a /\ mem_objects m1 = mem_objects m /\ clients m1 = a :: clients m /\ ~ In a (in_use m)
    | (m1, Raised _) => mem_objects m1 = mem_objects m /\ clients m1 = clients m
    | (_, Crashed) => True
    | (_, Broken) => False
    end.
  Lemma engine_made_made why o m m1 r : engine_made why o m m1 r -> made (m1, r) m.
  Proof.
    destruct o as [en|er|]; cbn [engine_made].
    - intros (a & -> & O & N & C). exists a. unfold clients. rewrite C. auto.
    - intros (-> & O & C). cbn [made]. unfold clients. rewrite C. auto.
    - intros ->. exact I.
  Qed.
  Lemma init_made d b m : made (py_init x js cs msg path_text symbol es d b m) m.
  Proof.
    destruct (py_init x js cs msg path_text symbol es d b m) as [m1 r] eqn:E. destruct d as [d|].
    - destruct (forallb is_scalar (path_text d)) eqn:S.
      + eapply engine_made_made. eapply py_init_dir_ends; [apply scalar_unicode; exact S|apply before_zero_cut|exact E].
      + unfold py_init, on_raise, py_encode in E. rewrite S in E. erewrite pbind_raised in E by reflexivity. inv E. split; reflexivity.
    - destruct b as [b|].
      + eapply engine_made_made. eapply py_init_bytes_ends. exact E.
      + inv E. split; reflexivity.
  Qed.
  Lemma del_client e m a : In a (clients m) -> NoDup (clients m) -> exists m1, py_del x js cs msg e (Some a) m = (m1, Value tt) /\
    mem_objects m1 = mem_objects m /\ Permutation (clients m) (a :: clients m1) /\ NoDup (clients m1).
  Proof.
    intros Ca N. unfold py_del, M_Wrap.ffi_, M_Wrap.ffi, mstep, mcall. cbn [step]. unfold pbind, destroy_client.
    destruct (hget Nat.eqb a (w_clients (mem_world m))) as [c|] eqn:G.
    - eexists. split; [reflexivity|]. split; [reflexivity|]. 
      assert (P : Permutation (clients m) (a :: map fst (without a (w_clients (mem_world m))))) by (apply without_keys; assumption).
      split; [exact P|]. eapply Permutation_NoDup in N; [|exact P]. inversion N as [|? ? N1 N2]. exact N2.
    - exfalso. eapply hget_none_absent; eauto.
  Qed.
End Python.

Lemma without_values {V} a v (l : list (nat * V)) : NoDup (map fst l) -> hget Nat.eqb a l = Some v ->
  Permutation (map snd l) (v :: map snd (without a l)).
Proof.
  induction l as [|[k w] l IH]; [discriminate|]. simpl. intros N H. inversion N as [|? ? Nk Nl]; subst.
  destruct (Nat.eqb_spec a k) as [->|Na].
  - injection H as ->. rewrite Nat.eqb_refl. cbn [negb]. fold (without k l). rewrite without_absent by exact Nk. reflexivity.
  - assert (E : Nat.eqb k a = false) by (apply Nat.eqb_neq; auto). rewrite E. cbn [negb map snd]. fold (without a l).
    rewrite (IH Nl H) at 1. apply perm_swap.
Qed.
Lemma without_nodup {V} a (l : list (nat * V)) : NoDup (map fst l) -> NoDup (map fst (without a l)).
Proof.
  induction l as [|[k w] l IH]; auto. simpl. intros N. inversion N as [|? ? Nk Nl]; subst.
  destruct (Nat.eqb k a); cbn [negb]; auto. fold (without a l). simpl. constructor; auto.
  intros I. apply Nk. apply in_map_iff in I as ([k' v] & <- & I). apply filter_In in I as [I _]. apply in_map_iff. exists (k', v). auto.
Qed.
Lemma hinsert_keys {V} a (v : V) l : NoDup (map fst l) -> NoDup (map fst (hinsert Nat.eqb a v l)) /\
  (forall k, In k (map fst (hinsert Nat.eqb a v l)) <-> k = a \/ In k (map fst l)).
Proof.
  induction l as [|[k w] l IH]; simpl; intros N.
  - split; [repeat constructor; intros []|]. intros k. intuition congruence.
  - inversion N as [|? ? Nk Nl]; subst. destruct (IH Nl) as [A B]. destruct (Nat.eqb_spec a k) as [->|Na]; simpl.
    + split; [constructor; auto|]. intros k'. intuition congruence.
    + split; [constructor; auto; rewrite B; intuition congruence|]. intros k'. rewrite B. intuition congruence.
Qed.
Lemma hinsert_values {V} a (v : V) l :
  match hget Nat.eqb a l with
  | Some old => Permutation (old :: map snd (hinsert Nat.eqb a v l)) (v :: map snd l)
  | None => Permutation (map snd (hinsert Nat.eqb a v l)) (v :: map snd l)
  end.
Proof.
  induction l as [|[k w] l IH]; simpl; [reflexivity|]. destruct (Nat.eqb_spec a k) as [->|Na]; simpl.
  - apply perm_swap.
  - destruct (hget Nat.eqb a l) as [old|].
    + rewrite perm_swap. rewrite IH. apply perm_swap.
    + rewrite IH. apply perm_swap.
Qed.

Section History.
  Context (x : Ext) (js : output -> outcome str) (cs : output -> outcome output) (msg : option error -> str).
  Context (path_text : str -> str) (symbol : bool).
  Hypothesis no_zero : forall o s, js o = Ok s -> ~ In 0%N s.
  Hypothesis msg_no_zero : forall e, ~ In 0%N (msg e).

  (** The clients are those of the variables, and there is nothing else. *)
  Definition clean (st : Py) : Prop :=
    mem_objects (py_memory st) = [] /\ NoDup (clients (py_memory st)) /\ NoDup (map fst (py_variables st)) /\
    Permutation (map Some (clients (py_memory st))) (map snd (py_variables st)).

  Lemma variable_client st v p : clean st -> hget Nat.eqb v (py_variables st) = Some p -> exists a, p = Some a /\ In a (clients (py_memory st)).
  Proof.
    intros (_ & _ & _ & P) H. apply hget_In in H; [|exact Nat.eqb_eq].
    assert (I : In p (map snd (py_variables st))) by (apply in_map_iff; exists (v, p); auto).
    eapply Permutation_in in I; [|apply Permutation_sym; exact P]. apply in_map_iff in I as (a & <- & I). eauto.
  Qed.
  Lemma unsome (l m : list nat) : Permutation (map Some l) (map Some m) -> Permutation l m.
  Proof.
    intros H. assert (E : forall l : list nat, flat_map (fun o => match o with Some a => [a] | None => [] end) (map Some l) = l).
    { induction l0 as [|a l0 IH]; auto. simpl. rewrite IH. reflexivity. }
    rewrite <- (E l), <- (E m). apply Permutation_flat_map. exact H.
  Qed.
  Lemma ask_clean st v ask st1 r : clean st -> (forall m a, In a (clients m) -> tidy (ask (Some a) m) m) ->
    py_ask st v ask = (st1, r) -> r <> Broken /\ (r <> Crashed -> clean st1).
  Proof.
    intros C T E. unfold py_ask in E. destruct (hget Nat.eqb v (py_variables st)) as [p|] eqn:G.
    - destruct (variable_client st v p C G) as (a & -> & I). specialize (T (py_memory st) a I). unfold pbind in E.
      destruct C as (C1 & C2 & C3 & C4).
      destruct (ask (Some a) (py_memory st)) as [m1 [s|w| |]]; cbn [tidy] in T; cbn in E; inv E; try contradiction.
      + split; [discriminate|]. intros _. destruct T as [T1 T2]. unfold clean. cbn [py_memory py_variables]. rewrite T1, T2. auto.
      + split; [discriminate|]. intros _. destruct T as [T1 T2]. unfold clean. cbn [py_memory py_variables]. rewrite T1, T2. auto.
      + split; [discriminate|]. congruence.
    - inv E. split; [discriminate|auto].
  Qed.
  Lemma step_clean st es o st1 r : allocator es -> clean st -> py_step x js cs msg path_text symbol st es o = (st1, r) ->
    r <> Broken /\ (r <> Crashed -> clean st1).
  Proof.
    intros A C E. destruct o as [v d b|v q wl bl ia sa|v q i sa|v q|v]; cbn [py_step] in E.
    - pose proof (init_made x js cs msg path_text symbol msg_no_zero es A d b (py_memory st)) as M.
      destruct C as (C1 & C2 & C3 & C4).
      destruct (py_init x js cs msg path_text symbol es d b (py_memory st)) as [m1 [p|w| |]] eqn:Ei; cbn [made] in M.
      + destruct M as (a & -> & M1 & M2 & M3). rewrite (pbind_value _ _ _ _ _ Ei) in E.
        assert (Na : ~ In a (clients (py_memory st))) by (intros I; apply M3; unfold in_use; apply in_or_app; left; exact I).
        assert (Nm : NoDup (clients m1)) by (rewrite M2; constructor; assumption).
        pose proof (hinsert_values (V := cptr) v (Some a) (py_variables st)) as HV.
        destruct (hinsert_keys (V := cptr) v (Some a) (py_variables st) C3) as [HK _].
        destruct (hget Nat.eqb v (py_variables st)) as [old|] eqn:G.
        * destruct (variable_client st v old) as (b' & -> & Ib); [repeat split; auto|exact G|].
          destruct (del_client x js cs msg (es 4) m1 b') as (m2 & D & D1 & D2 & D3); [rewrite M2; right; exact Ib|exact Nm|].
          rewrite (pbind_value _ _ _ _ _ D) in E. cbn [ret] in E. inv E. split; [discriminate|]. intros _.
          unfold clean. cbn [py_memory py_variables]. rewrite D1, M1. split; [exact C1|]. split; [exact D3|]. split; [exact HK|].
          apply (Permutation_cons_inv (a := Some b')). rewrite HV, <- C4. rewrite <- map_cons. rewrite <- (map_cons Some a). rewrite <- M2.
          apply Permutation_map. apply Permutation_sym. exact D2.
        * rewrite (pbind_value _ _ _ m1 tt eq_refl) in E. cbn [ret] in E. inv E. split; [discriminate|]. intros _.
          unfold clean. cbn [py_memory py_variables]. rewrite M1, M2. split; [exact C1|]. split; [rewrite <- M2; exact Nm|]. split; [exact HK|].
          rewrite HV. cbn [map]. constructor. exact C4.
      + destruct M as [M1 M2]. rewrite (pbind_raised _ _ _ _ _ Ei) in E. inv E. split; [discriminate|]. intros _.
        unfold clean. cbn [py_memory py_variables]. rewrite M1, M2. auto.
      + rewrite (pbind_crashed _ _ _ _ Ei) in E. inv E. split; [discriminate|congruence].
      + contradiction.
    - eapply ask_clean; eauto. intros m a I. apply parse_tidy; assumption.
    - eapply ask_clean; eauto. intros m a I. apply slots_tidy; assumption.
    - eapply ask_clean; eauto. intros m a I. apply intents_tidy; assumption.
    - destruct (hget Nat.eqb v (py_variables st)) as [p|] eqn:G.
      + destruct (variable_client st v p C G) as (a & -> & I). destruct C as (C1 & C2 & C3 & C4).
        destruct (del_client x js cs msg (es 0) (py_memory st) a I C2) as (m1 & D & D1 & D2 & D3).
        rewrite (pbind_value _ _ _ _ _ D) in E. cbn [ret] in E. inv E. split; [discriminate|]. intros _.
        unfold clean. cbn [py_memory py_variables]. fold (without v (py_variables st)). rewrite D1. split; [exact C1|]. split; [exact D3|].
        split; [apply without_nodup; exact C3|]. apply (Permutation_cons_inv (a := Some a)).
        rewrite <- (without_values (V := cptr) v (Some a) (py_variables st) C3 G), <- C4, <- map_cons. apply Permutation_map. apply Permutation_sym. exact D2.
      + inv E. split; [discriminate|auto].
  Qed.
  Lemma run_clean l : forall st st1 rs, (forall es o, In (es, o) l -> allocator es) -> clean st ->
    py_run x js cs msg path_text symbol st l = (st1, rs) -> ~ In Broken rs /\ (~ In Crashed rs -> clean st1).
  Proof.
    induction l as [|[es o] l IH]; intros st st1 rs A C E.
    - inv E. split; [intros []|auto].
    - cbn [py_run] in E. destruct (py_step x js cs msg path_text symbol st es o) as [st2 r] eqn:S.
      destruct (step_clean st es o st2 r) as [B K]; [apply (A es o); left; reflexivity|exact C|exact S|].
      destruct r as [v|w| |].
      + destruct (py_run x js cs msg path_text symbol st2 l) as [st3 s] eqn:R. inv E.
        destruct (IH st2 st1 s) as [I1 I2]; [intros e p I; apply (A e p); right; exact I|apply K; discriminate|exact R|].
        split; [intros [H|H]; [discriminate|auto]|]. intros N. apply I2. intros I. apply N. right. exact I.
      + destruct (py_run x js cs msg path_text symbol st2 l) as [st3 s] eqn:R. inv E.
        destruct (IH st2 st1 s) as [I1 I2]; [intros e p I; apply (A e p); right; exact I|apply K; discriminate|exact R|].
        split; [intros [H|H]; [discriminate|auto]|]. intros N. apply I2. intros I. apply N. right. exact I.
      + inv E. split; [intros [H|[]]; discriminate|]. intros N. exfalso. apply N. left. reflexivity.
      + congruence.
  Qed.
End History.

Lemma py_program x js cs msg path_text symbol : (forall e, ~ In 0%N (msg e)) ->
  forall l st rs, (forall es o, In (es, o) l -> allocator es) ->
  py_run x js cs msg path_text symbol (mkPy empty_memory []) l = (st, rs) ->
  ~ In Broken rs /\
  (~ In Crashed rs -> mem_objects (py_memory st) = [] /\ Permutation (map Some (clients (py_memory st))) (map snd (py_variables st))).
Proof.
  intros MZ l st rs A E. destruct (run_clean x js cs msg path_text symbol MZ l (mkPy empty_memory []) st rs A) as [B C]; [|exact E|].
  - repeat split; cbn; constructor.
  - split; [exact B|]. intros N. destruct (C N) as (C1 & _ & _ & C4). auto.
Qed.

(** ** Numbers *)
Lemma py_uint_same z z' m : passable z -> passable z' -> same_low_bits z z' -> py_uint z m = py_uint z' m.
Proof.
  unfold passable. change (2 ^ 63)%Z with 9223372036854775808%Z. change (2 ^ 64)%Z with 18446744073709551616%Z.
  intros P P' (k & ->). unfold py_uint. change (2 ^ 32)%Z with 4294967296%Z in *.
  rewrite !(proj2 (Z.leb_le _ _)) by lia. rewrite !(proj2 (Z.ltb_lt _ _)) by lia. rewrite Z.mod_add by lia. reflexivity.
Qed.
Lemma py_uint_long z m : ~ passable z -> py_uint z m = (m, Raised None).
Proof.
  unfold passable. change (2 ^ 63)%Z with 9223372036854775808%Z. change (2 ^ 64)%Z with 18446744073709551616%Z.
  intros P. unfold py_uint. destruct (Z.leb_spec (-9223372036854775808) z); destruct (Z.ltb_spec z 18446744073709551616); try reflexivity. lia.
Qed.
Lemma pbind_ext {A B} (p p' : prog A) (k k' : A -> prog B) m : p m = p' m -> (forall a m1, p' m = (m1, Value a) -> k a m1 = k' a m1) ->
  pbind p k m = pbind p' k' m.
Proof. intros E H. unfold pbind. rewrite E. destruct (p' m) as [m1 [a|w| |]] eqn:E'; auto. Qed.
Lemma py_numbers x js cs msg symbol es p q i wl bl ia ia' sa sa' m :
  passable ia -> passable ia' -> passable sa -> passable sa' -> same_low_bits ia ia' -> same_low_bits sa sa' ->
  py_parse x js cs msg symbol es p q wl bl ia sa m = py_parse x js cs msg symbol es p q wl bl ia' sa' m /\
  py_get_slots x js cs msg symbol es p q i sa m = py_get_slots x js cs msg symbol es p q i sa' m.
Proof.
  intros A A' B B' C D. split.
  - unfold py_parse. apply pbind_ext; [reflexivity|]. intros vw m1 _. apply pbind_ext; [reflexivity|]. intros vb m2 _.
    unfold string_pointer.
    match goal with |- match ?a with _ => _ end = match ?b with _ => _ end => replace b with a; [reflexivity|] end.
    apply pbind_ext; [reflexivity|]. intros b m3 _. apply pbind_ext; [apply py_uint_same; assumption|]. intros n m4 _.
    apply pbind_ext; [apply py_uint_same; assumption|]. reflexivity.
  - unfold py_get_slots, string_pointer.
    match goal with |- match ?a with _ => _ end = match ?b with _ => _ end => replace b with a; [reflexivity|] end.
    apply pbind_ext; [reflexivity|]. intros b m3 _. apply pbind_ext; [reflexivity|]. intros n m4 _.
    apply pbind_ext; [apply py_uint_same; assumption|]. reflexivity.
Qed.
Lemma py_encode_raises s m : (exists a, py_encode s m = (m, Value a)) \/ py_encode s m = (m, Raised None).
Proof. unfold py_encode. destruct (forallb is_scalar s); [left; eexists|right]; reflexivity. Qed.
Lemma py_encode_all_raises l : forall m, (exists a, py_encode_all l m = (m, Value a)) \/ py_encode_all l m = (m, Raised None).
Proof.
  induction l as [|s l IH]; intros m; cbn [py_encode_all]; [left; eexists; reflexivity|].
  destruct (py_encode_raises s m) as [(b & E)|E]; [rewrite (pbind_value _ _ _ _ _ E)|right; rewrite (pbind_raised _ _ _ _ _ E); reflexivity].
  destruct (IH m) as [(t & F)|F]; [left; rewrite (pbind_value _ _ _ _ _ F); eexists; reflexivity|right; rewrite (pbind_raised _ _ _ _ _ F); reflexivity].
Qed.
Lemma py_list_raises l m : (exists a, py_list l m = (m, Value a)) \/ py_list l m = (m, Raised None).
Proof.
  destruct l as [l|]; cbn [py_list]; [|left; eexists; reflexivity].
  destruct (py_encode_all_raises l m) as [(t & F)|F]; [left; rewrite (pbind_value _ _ _ _ _ F); eexists; reflexivity|right; rewrite (pbind_raised _ _ _ _ _ F); reflexivity].
Qed.
Lemma pointer_raises x js cs msg {A} e (fill : prog (bool * cptr)) (use : bool -> cptr -> prog A) m : fill m = (m, Raised None) ->
  exists m1, string_pointer x js cs msg e fill use m = (m1, Raised None) /\ same_memory m m1.
Proof.
  intros E. unfold string_pointer. rewrite E. eexists. split; [reflexivity|]. split; reflexivity.
Qed.
Lemma py_long_numbers x js cs msg symbol es p q i wl bl ia sa m :
  (~ passable ia \/ ~ passable sa ->
   exists m1, py_parse x js cs msg symbol es p q wl bl ia sa m = (m1, Raised None) /\ same_memory m m1) /\
  (~ passable sa ->
   exists m1, py_get_slots x js cs msg symbol es p q i sa m = (m1, Raised None) /\ same_memory m m1).
Proof.
  assert (R : same_memory m m) by (split; reflexivity). split.
  - intros N. unfold py_parse.
    destruct (py_list_raises wl m) as [(vw & Ew)|Ew]; [rewrite (pbind_value _ _ _ _ _ Ew)|rewrite (pbind_raised _ _ _ _ _ Ew); eauto].
    destruct (py_list_raises bl m) as [(vb & Eb)|Eb]; [rewrite (pbind_value _ _ _ _ _ Eb)|rewrite (pbind_raised _ _ _ _ _ Eb); eauto].
    apply pointer_raises.
    destruct (py_encode_raises q m) as [(b & E)|E]; [rewrite (pbind_value _ _ _ _ _ E)|apply pbind_raised; exact E].
    destruct (Z_le_dec (- 2 ^ 63) ia) as [L|L]; [destruct (Z_lt_dec ia (2 ^ 64)) as [L'|L']|];
      [|apply pbind_raised, py_uint_long; intros [? ?]; contradiction|apply pbind_raised, py_uint_long; intros [? ?]; contradiction].
    destruct (uint_cases ia m) as [(n & F)|(w & F)]; [rewrite (pbind_value _ _ _ _ _ F)|].
    + apply pbind_raised, py_uint_long. destruct N as [N|N]; [exfalso; apply N; split; assumption|exact N].
    + exfalso. unfold py_uint in F. change (2 ^ 63)%Z with 9223372036854775808%Z in L. change (2 ^ 64)%Z with 18446744073709551616%Z in L'.
      rewrite (proj2 (Z.leb_le _ _)) in F by lia. rewrite (proj2 (Z.ltb_lt _ _)) in F by lia. discriminate.
  - intros N. unfold py_get_slots. apply pointer_raises.
    destruct (py_encode_raises q m) as [(b & E)|E]; [rewrite (pbind_value _ _ _ _ _ E)|apply pbind_raised; exact E].
    destruct (py_encode_raises i m) as [(b' & E')|E']; [rewrite (pbind_value _ _ _ _ _ E')|apply pbind_raised; exact E'].
    apply pbind_raised, py_uint_long. exact N.
Qed.
Lemma numbers_case : passable (-1) /\ passable 4294967295 /\ same_low_bits (-1) 4294967295 /\ ~ passable 18446744073709551616.
Proof.
  unfold passable, same_low_bits. change (2 ^ 63)%Z with 9223372036854775808%Z. change (2 ^ 64)%Z with 18446744073709551616%Z.
  change (2 ^ 32)%Z with 4294967296%Z. repeat split; try lia. exists 1%Z. reflexivity.
Qed.
