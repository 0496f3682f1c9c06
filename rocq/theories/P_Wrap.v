(** Lemmas shared by the wrappers. *)
From Coq Require Import String List NArith ZArith Bool Arith Lia Permutation.
From Verif Require Import Base F32 M_Types M_Engine M_Filler M_Load S_Base S_Filler M_Ffi S_Ffi P_Base P_Encode P_Ffi
  M_Memory S_Memory P_Memory M_Wrap S_Wrap.
Import ListNotations.
Local Open Scope nat_scope.

(** ** Texts *)
Lemma before_zero_cut s : cut_at_zero s (before_zero s).
Proof.
  induction s as [|c s IH]; [constructor|]. simpl. destruct (N.eqb_spec c 0) as [->|N]; constructor; auto.
Qed.
Lemma cut_before s t : cut_at_zero s t -> t = before_zero s.
Proof. induction 1 as [|s|c s t N H IH]; auto. simpl. apply N.eqb_neq in N. rewrite N, IH. reflexivity. Qed.
Lemma cut_whole s : ~ In 0%N s -> cut_at_zero s s.
Proof.
  induction s as [|c s IH]; intros N; constructor.
  - intros ->. apply N. left. reflexivity.
  - apply IH. intros I. apply N. right. exact I.
Qed.
Lemma before_zero_app a b : ~ In 0%N a -> before_zero (a ++ b) = a ++ before_zero b.
Proof.
  induction a as [|c a IH]; intros N; auto. simpl. destruct (N.eqb_spec c 0) as [->|_]; [exfalso; apply N; left; auto|].
  rewrite IH; auto. intros I. apply N. right. exact I.
Qed.
Lemma utf8_char_zero c : c <> 0%N -> ~ In 0%N (utf8_char c).
Proof.
  intros N. unfold utf8_char. destruct (c <? 128)%N; [|destruct (c <? 2048)%N; [|destruct (c <? 65536)%N]]; cbn [In]; intros H;
    repeat (destruct H as [H|H]; [try contradiction; apply N.eq_add_0 in H as [H _]; discriminate|]); exact H.
Qed.
Lemma before_zero_utf8 s : before_zero (utf8_encode s) = utf8_encode (before_zero s).
Proof.
  induction s as [|c s IH]; auto. rewrite enc_cons. simpl. destruct (N.eqb_spec c 0) as [->|N]; [reflexivity|].
  rewrite before_zero_app by (apply utf8_char_zero; exact N). rewrite enc_cons, IH. reflexivity.
Qed.
Lemma before_zero_unicode s : unicode s -> unicode (before_zero s).
Proof.
  intros U. induction s as [|c s IH]; auto. simpl. destruct (c =? 0)%N; [intros d []|].
  intros d [<-|I]; [apply U; left; reflexivity|]. apply IH; auto. intros e H. apply U. right. exact H.
Qed.
Lemma c_string_text s t : unicode s -> cut_at_zero s t -> text (c_string (utf8_encode s)) t.
Proof.
  intros U C. apply cut_before in C as ->. split; [apply before_zero_unicode; exact U|].
  unfold c_string. rewrite before_zero_utf8. reflexivity.
Qed.
Lemma unicode_scalar s : unicode s -> forallb is_scalar s = true.
Proof. intros U. apply forallb_forall. intros c I. apply is_scalar_spec. apply U. exact I. Qed.
Lemma scalar_unicode s : forallb is_scalar s = true -> unicode s.
Proof. intros H c I. rewrite forallb_forall in H. apply is_scalar_spec. auto. Qed.

(** ** Programs *)
Lemma pbind_value {A B} (p : prog A) (k : A -> prog B) m m1 a : p m = (m1, Value a) -> pbind p k m = k a m1.
Proof. unfold pbind. intros ->. reflexivity. Qed.
Lemma pbind_raised {A B} (p : prog A) (k : A -> prog B) m m1 w : p m = (m1, Raised w) -> pbind p k m = (m1, Raised w).
Proof. unfold pbind. intros ->. reflexivity. Qed.
Lemma pbind_crashed {A B} (p : prog A) (k : A -> prog B) m m1 : p m = (m1, Crashed) -> pbind p k m = (m1, Crashed).
Proof. unfold pbind. intros ->. reflexivity. Qed.
Lemma finally_value {A} (p : prog A) l m m1 m2 a : p m = (m1, Value a) -> l m1 = (m2, Value tt) -> finally p l m = (m2, Value a).
Proof. unfold finally, pbind. intros -> ->. reflexivity. Qed.
Lemma finally_raised {A} (p : prog A) l m m1 m2 w : p m = (m1, Raised w) -> l m1 = (m2, Value tt) -> finally p l m = (m2, Raised w).
Proof. unfold finally, pbind. intros -> ->. reflexivity. Qed.
Lemma finally_crashed {A} (p : prog A) l m m1 : p m = (m1, Crashed) -> finally p l m = (m1, Crashed).
Proof. unfold finally. intros ->. reflexivity. Qed.
Lemma on_raise_raised {A} (p : prog A) l m m1 m2 w : p m = (m1, Raised w) -> l m1 = (m2, Value tt) -> on_raise p l m = (m2, Raised w).
Proof. unfold on_raise, pbind. intros -> ->. reflexivity. Qed.

(** ** Memory *)
Section Wrap.
  Context (x : Ext) (js : output -> outcome str) (cs : output -> outcome output) (msg : option error -> str).
  Notation ffi := (ffi x js cs msg).
  Notation ffi_ := (ffi_ x js cs msg).
  Notation mstep := (mstep x js cs msg).

  Definition set_error (m : Memory) (er : error) : Memory :=
    mkMem (mkWorld (w_clients (mem_world m)) (Some er)) (mem_objects m).
  Definition add (m : Memory) (a : nat) (k : kind) (o : output) : Memory :=
    mkMem (mem_world m) ((a, (k, o)) :: mem_objects m).

  Lemma ffi_handed e r k o m m1 s : mstep m (e m) r = (m1, s) -> handed (e m) k o m m1 s ->
    ffi e r m = match o with
                | Ok v => (add m (env_address (e m)) k v, Value (true, Some (env_address (e m))))
                | Err er => (set_error m er, Value (false, None))
                | Panic => (m1, Crashed)
                end.
  Proof.
    intros E H. unfold M_Wrap.ffi. rewrite E. destruct o as [v|er|]; cbn [handed] in H.
    - destruct H as [-> ->]. reflexivity.
    - destruct H as [-> ->]. reflexivity.
    - subst s. reflexivity.
  Qed.
  Lemma read_added m a k o : read k (Some a) (add m a k o) = (add m a k o, Value o).
  Proof. unfold read, add. cbn [mem_objects hget]. rewrite Nat.eqb_refl, (proj2 (kind_eqb_eq k k) eq_refl). reflexivity. Qed.
  Lemma read_text_added m a t : read_text (Some a) (add m a KString (OutText t)) = (add m a KString (OutText t), Value t).
  Proof. unfold read_text, pbind. rewrite read_added. reflexivity. Qed.
  Lemma destroy_added e m a k o : ~ In a (in_use m) -> ffi_ e (Destroy k (Some a)) (add m a k o) = (m, Value tt).
  Proof.
    intros N. unfold M_Wrap.ffi_, pbind, M_Wrap.ffi.
    rewrite (destroy_object x js cs msg (add m a k o) (e (add m a k o)) a k o).
    - cbn [add mem_world mem_objects ret]. unfold without. cbn [filter fst]. rewrite Nat.eqb_refl. cbn [negb].
      fold (without a (mem_objects m)). rewrite without_absent; [destruct m; reflexivity|].
      intros I. apply N. unfold in_use. apply in_or_app. right. exact I.
    - unfold object_at, add. cbn [mem_objects hget]. rewrite Nat.eqb_refl. reflexivity.
  Qed.
  Lemma destroy_nothing e m k : ffi_ e (Destroy k None) m = (set_error m EOther, Value tt).
  Proof. reflexivity. Qed.
  Lemma last_error_added e m : ~ In 0%N (msg (w_error (mem_world m))) ->
    ffi e GetLastError m = (add m (env_address (e m)) KString (OutText (msg (w_error (mem_world m)))), Value (true, Some (env_address (e m)))).
  Proof.
    intros N. destruct (mstep m (e m) GetLastError) as [m1 s] eqn:E.
    pose proof (last_error x js cs msg m (e m) m1 s N E) as H. rewrite (ffi_handed _ _ _ _ _ _ _ E H). reflexivity.
  Qed.
  Lemma same_refl m : same_memory m m.
  Proof. split; reflexivity. Qed.
  Lemma same_set_error m er : same_memory m (set_error m er).
  Proof. split; reflexivity. Qed.
  Lemma in_use_same m m1 : same_memory m m1 -> in_use m1 = in_use m.
  Proof. intros [A B]. unfold in_use. rewrite A, B. reflexivity. Qed.
  Lemma in_use_add m a k o b : In b (in_use m) -> In b (in_use (add m a k o)).
  Proof. unfold in_use, add. cbn. rewrite !in_app_iff. simpl. tauto. Qed.
  (** A call that gives json. *)
  Definition gives_json (c : call) : Prop :=
    match c with
    | RunParse _ _ _ _ j | RunParseWithAlternatives _ _ _ _ _ _ j | RunGetSlots _ _ _ j | RunGetSlotsWithAlternatives _ _ _ _ j
    | RunGetIntents _ _ j => j = true
    | _ => False
    end.
  Lemma locked_text w ae k o : (forall en o, k en = Some (Ok o) -> exists t, o = OutText t) -> snd (locked w ae k) = ROk o -> exists t, o = OutText t.
  Proof.
    intros H. destruct ae as [[[a en]|e|]|]; cbn [locked wrap snd]; try discriminate.
    specialize (H en). destruct (k en) as [[v|e|]|]; cbn [wrap snd]; try discriminate. intros E. inv E. eauto.
  Qed.
  Lemma first_text {A} w (m : act A) k o : (forall a o, snd (k a) = ROk o -> exists t, o = OutText t) ->
    snd (first w m k) = ROk o -> exists t, o = OutText t.
  Proof. intros H. destruct m as [[v|e|]|]; cbn [first wrap snd]; try discriminate. apply H. Qed.
  Lemma give_text o v : give js cs true o = Ok v -> exists t, v = OutText t.
  Proof.
    cbn [give]. destruct (js o) as [s|e|]; cbn [bind]; try discriminate. unfold point_to_string.
    destruct (existsb (N.eqb 0) s); [discriminate|]. intros H. inv H. eauto.
  Qed.
  Lemma json_text w e c o : gives_json c -> snd (step x js cs w e c) = ROk o -> exists t, o = OutText t.
  Proof.
    assert (P : forall p i wl bl ia sa v, snd (run_parse x js cs w e p i wl bl ia sa true) = ROk v -> exists t, v = OutText t).
    { intros p i wl bl ia sa v. apply first_text. intros s v'. apply locked_text. intros en v2 H.
      destruct (rust_strings wl) as [[w'|er|]|]; cbn [abind] in H; try discriminate.
      destruct (rust_strings bl) as [[b'|er|]|]; cbn [abind] in H; try discriminate.
      destruct (parse_with_alternatives _ _ _ _ _ _ _ _ _); cbn [abind] in H; try discriminate.
      injection H as H. eapply give_text. exact H. }
    assert (S : forall p i n sa v, snd (run_get_slots x js cs w p i n sa true) = ROk v -> exists t, v = OutText t).
    { intros p i n sa v. apply first_text. intros s v'. apply first_text. intros n' v2. apply locked_text. intros en v3 H.
      destruct (get_slots_with_alternatives _ _ _ _ _); cbn [abind] in H; try discriminate.
      injection H as H. eapply give_text. exact H. }
    destruct c; cbn [gives_json]; intros H; try contradiction; subst json; cbn [M_Ffi.step].
    - apply P.
    - apply P.
    - apply S.
    - apply S.
    - apply first_text. intros s v'. apply locked_text. intros en v3 H.
      destruct (get_intents _ _ _); cbn [abind] in H; try discriminate. injection H as H. eapply give_text. exact H.
  Qed.


  Lemma client_used m a c : In a (clients m) -> about c = Some a -> lists c = [] -> c <> CreateFromZip None -> ~ misused (mem_world m) c.
  Proof.
    intros Ca A L Z [(a' & E & N)|[N|[(l & N & _)|N]]].
    - rewrite A in E. injection E as <-. eapply hget_none_absent; eauto.
    - rewrite L in N. exact N.
    - rewrite L in N. exact N.
    - contradiction.
  Qed.
  Lemma delete_client e m a : In a (clients m) -> NoDup (clients m) -> exists m1, ffi_ e (Call (DestroyClient (Some a))) m = (m1, Value tt) /\
    mem_objects m1 = mem_objects m /\ Permutation (clients m) (a :: clients m1) /\ NoDup (clients m1).
  Proof.
    intros Ca N. unfold M_Wrap.ffi_, M_Wrap.ffi, M_Memory.mstep, mcall. cbn [step]. unfold pbind, destroy_client.
    destruct (hget Nat.eqb a (w_clients (mem_world m))) as [c|] eqn:G.
    - eexists. split; [reflexivity|]. split; [reflexivity|].
      assert (P : Permutation (clients m) (a :: map fst (without a (w_clients (mem_world m))))) by (apply without_keys; assumption).
      split; [exact P|]. eapply Permutation_NoDup in N; [|exact P]. inversion N as [|? ? N1 N2]. exact N2.
    - exfalso. eapply hget_none_absent; eauto.
  Qed.
  Lemma create_cases e c o m :
    (forall w s, step x js cs (mem_world m) (e m) c = (w, s) ->
       match o with
       | Ok en => s = ROk (OutClient (env_address (e m))) /\
                  w = mkWorld ((env_address (e m), mkClient en false) :: w_clients (mem_world m)) (w_error (mem_world m))
       | Err er => s = RKo /\ w = mkWorld (w_clients (mem_world m)) (Some er)
       | Panic => s = RPanic /\ w = mem_world m
       end) -> allocates c = None ->
    ffi e (Call c) m = match o with
       | Ok en => (mkMem (mkWorld ((env_address (e m), mkClient en false) :: w_clients (mem_world m)) (w_error (mem_world m))) (mem_objects m),
                   Value (true, Some (env_address (e m))))
       | Err er => (set_error m er, Value (false, None))
       | Panic => (m, Crashed) end.
  Proof.
    intros H A. destruct (step x js cs (mem_world m) (e m) c) as [w s] eqn:S. specialize (H w s eq_refl).
    unfold M_Wrap.ffi, M_Memory.mstep, mcall. rewrite S, A. destruct o as [en|er|]; destruct H as [-> ->]; try reflexivity. destruct m; reflexivity.
  Qed.
  Lemma create_dir_step m e d t : text d t -> forall w s, step x js cs (mem_world m) e (CreateFromDir d) = (w, s) ->
       match env_dir e t with
       | Ok en => s = ROk (OutClient (env_address e)) /\ w = mkWorld ((env_address e, mkClient en false) :: w_clients (mem_world m)) (w_error (mem_world m))
       | Err er => s = RKo /\ w = mkWorld (w_clients (mem_world m)) (Some er)
       | Panic => s = RPanic /\ w = mem_world m
       end.
  Proof.
    intros T w s S. cbn [step] in S. unfold new_client in S. rewrite (rust_string_text _ _ T) in S.
    cbn [abind] in S. destruct (env_dir e t) as [en|er|]; cbn [first wrap] in S; inv S; auto.
  Qed.
  Lemma create_zip_step m e b : forall w s, step x js cs (mem_world m) e (CreateFromZip (Some b)) = (w, s) ->
       match env_zip e b with
       | Ok en => s = ROk (OutClient (env_address e)) /\ w = mkWorld ((env_address e, mkClient en false) :: w_clients (mem_world m)) (w_error (mem_world m))
       | Err er => s = RKo /\ w = mkWorld (w_clients (mem_world m)) (Some er)
       | Panic => s = RPanic /\ w = mem_world m
       end.
  Proof.
    intros w s S. cbn [step] in S. unfold new_client in S. cbn [rust_bytes abind] in S.
    destruct (env_zip e b) as [en|er|]; cbn [first wrap] in S; inv S; auto.
  Qed.

  (** What a call that allocates does. *)
  Definition fills_kind (k : kind) (c : call) (e : Env) (r : Memory * ending (bool * cptr)) (m : Memory) : Prop :=
    match r with
    | (m1, Value (true, p)) => exists a o m0, p = Some a /\ ~ In a (in_use m0) /\ m1 = add m0 a k o /\
                                 mem_objects m0 = mem_objects m /\ clients m0 = clients m /\ snd (step x js cs (mem_world m) e c) = ROk o
    | (m1, Value (false, p)) => p = None /\ (exists m0 er, m1 = set_error m0 er /\ mem_objects m0 = mem_objects m /\ clients m0 = clients m)
    | (_, Raised _) => False
    | (_, Crashed) => True
    | (_, Broken) => False
    end.
  Lemma call_fills es i c k m : allocator es -> allocates c = Some k -> ~ misused (mem_world m) c ->
    fills_kind k c (es i m) (ffi (es i) (Call c) m) m.
  Proof.
    intros es_fresh A U. unfold M_Wrap.ffi, M_Memory.mstep, mcall, fills_kind.
    pose proof (undefined_only x js cs (mem_world m) (es i m) c) as D.
    assert (K : keys (fst (step x js cs (mem_world m) (es i m) c)) = keys (mem_world m)).
    { pose proof (step_keys x js cs (mem_world m) (es i m) c) as K. rewrite A in K. apply K; auto. intros p ->. discriminate A. }
    destruct (step x js cs (mem_world m) (es i m) c) as [w s] eqn:S. cbn [fst snd] in *. rewrite A.
    destruct s as [o| | |]; cbn [allocate].
    - exists (env_address (es i m)), o, (mkMem w (mem_objects m)).
      assert (U2 : in_use (mkMem w (mem_objects m)) = in_use m) by (unfold in_use; cbn [mem_world mem_objects]; unfold keys in K; rewrite K; reflexivity).
      rewrite U2. split; [reflexivity|]. split; [apply es_fresh|]. split; [reflexivity|]. split; [reflexivity|]. split; [exact K|reflexivity].
    - split; [reflexivity|]. pose proof (error_recorded x js cs (mem_world m) (es i m) c) as R. rewrite S in R. cbn [fst snd] in R.
      destruct R as (er & R). exists (mkMem w (mem_objects m)), er. split; [|split; [reflexivity|exact K]].
      unfold set_error. cbn [mem_world mem_objects]. rewrite <- R. destruct w; reflexivity.
    - exact I.
    - apply U. apply D. reflexivity.
  Qed.
End Wrap.
