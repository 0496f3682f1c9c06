(** Lemmas about the Swift wrapper. *)
From Coq Require Import String List NArith ZArith Bool Arith Lia Permutation.
From Verif Require Import Base F32 M_Types M_Engine M_Filler M_Load S_Base S_Filler M_Ffi S_Ffi P_Base P_Encode P_Ffi
  M_Memory S_Memory P_Memory M_Wrap M_Python M_Kotlin M_Swift S_Wrap P_Wrap P_Python.
Import ListNotations.
Local Open Scope nat_scope.

Lemma sw_list_texts l m : unicode_list l -> cut_list l m -> texts (sw_list l) m.
Proof.
  intros U C. destruct C as [|l m F]; [exact I|]. cbn [sw_list texts].
  assert (V : forall s, In s l -> unicode s) by (intros s; apply (U l s eq_refl)). clear U.
  induction F as [|s t l m Fs F IH]; constructor; [apply c_string_text; [apply V; left; reflexivity|exact Fs]|].
  apply IH. intros s' I. apply V. right. exact I.
Qed.
Lemma sw_uint32_ok z m : uint32 z -> sw_uint32 z m = (m, Value (Z.to_nat z)).
Proof.
  intros U. unfold uint32 in U. unfold sw_uint32. rewrite (proj2 (Z.leb_le _ _)) by lia. rewrite (proj2 (Z.ltb_lt _ _)) by lia. reflexivity.
Qed.
Lemma sw_uint32_bad z m : ~ uint32 z -> sw_uint32 z m = (m, Crashed).
Proof.
  intros U. unfold uint32 in U. unfold sw_uint32. destruct (0 <=? z)%Z eqn:A; [|reflexivity]. destruct (z <? 4294967296)%Z eqn:B; [|reflexivity].
  apply Z.leb_le in A. apply Z.ltb_lt in B. lia.
Qed.

Section Swift.
  Context (x : Ext) (js : output -> outcome str) (cs : output -> outcome output) (msg : option error -> str).
  Context {V : Type} (view : output -> option V).
  Notation ffi := (ffi x js cs msg).
  Notation ffi_ := (ffi_ x js cs msg).
  Notation sw_ask := (sw_ask x js cs msg view).
  Notation throw_last := (throw_last x js cs msg).
  Hypothesis no_zero : forall o s, js o = Ok s -> ~ In 0%N s.
  Hypothesis msg_no_zero : forall e, ~ In 0%N (msg e).
  Variable es : meets.
  Hypothesis es_fresh : allocator es.

  Notation sw_why := (fun e => msg (Some e)).
  Lemma throw_raises {A} i m er : @M_Swift.throw_last x js cs msg A (es i) (set_error m er) =
    (add (set_error m er) (env_address (es i (set_error m er))) KString (OutText (sw_why er)), Raised (Some (sw_why er))).
  Proof.
    unfold M_Swift.throw_last. erewrite pbind_value by (apply last_error_added; apply msg_no_zero). cbn beta iota.
    erewrite pbind_value by apply read_text_added. reflexivity.
  Qed.
  Lemma sw_ask_ends k c o m m1 r :
    (forall m1 s, mstep x js cs msg m (es 0 m) (Call c) = (m1, s) -> handed (es 0 m) k o m m1 s) ->
    sw_ask es k c m = (m1, r) -> converted_swift view sw_why o m m1 r.
  Proof.
    intros H E. destruct (ffi_json x js cs msg es c k o m H) as (m' & F). unfold M_Swift.sw_ask in E. destruct o as [v|er|]; cbn [converted_swift].
    - rewrite (pbind_value _ _ _ _ _ F) in E. cbn beta iota in E.
      set (mv := add m (env_address (es 0 m)) k v) in *. destruct (view v) as [w|] eqn:Ev.
      + rewrite (finally_value _ _ _ mv m w) in E.
        * inv E. split; [reflexivity|apply same_refl].
        * erewrite pbind_value by apply read_added. rewrite Ev. reflexivity.
        * apply destroy_added. apply es_fresh.
      + rewrite (finally_raised _ _ _ mv m None) in E.
        * inv E. split; [reflexivity|apply same_refl].
        * erewrite pbind_value by apply read_added. rewrite Ev. reflexivity.
        * apply destroy_added. apply es_fresh.
    - rewrite (pbind_value _ _ _ _ _ F) in E. cbn beta iota in E.
      rewrite (finally_raised _ _ _ _ _ _ (throw_raises 1 m er) (destroy_nothing x js cs msg _ _ _)) in E. inv E.
      split; [reflexivity|]. split; [reflexivity|]. eexists. reflexivity.
    - rewrite (pbind_crashed _ _ _ _ F) in E. inv E. reflexivity.
  Qed.
  Lemma sw_parse_ends m a en q q' wl wl' bl bl' ia sa m1 r :
    client_at (mem_world m) a en false -> unicode q -> unicode_list wl -> unicode_list bl -> uint32 ia -> uint32 sa ->
    cut_at_zero q q' -> cut_list wl wl' -> cut_list bl bl' ->
    sw_parse x js cs msg view es (Some a) q wl bl ia sa m = (m1, r) ->
    converted_swift view sw_why (let* v := parse_with_alternatives x (env_ord1 (es 0 m)) (env_ord2 (es 0 m)) en q' wl' bl' (Z.to_nat ia) (Z.to_nat sa) in
                      cs (OutParse v)) m m1 r.
  Proof.
    intros C U UW UB Hi Hs Cq CW CB E. unfold sw_parse in E.
    rewrite (pbind_value _ _ _ _ _ (sw_uint32_ok ia m Hi)), (pbind_value _ _ _ _ _ (sw_uint32_ok sa m Hs)) in E.
    eapply sw_ask_ends; [|exact E]. intros m2 s.
    destruct (results_handed x js cs msg no_zero m (es 0 m) a en _ q' m2 s C (c_string_text q q' U Cq)) as (P & _).
    apply (P _ _ _ _ _ _ (sw_list_texts _ _ UW CW) (sw_list_texts _ _ UB CB)).
  Qed.
  Lemma sw_slots_ends m a en q q' i i' sa m1 r :
    client_at (mem_world m) a en false -> unicode q -> unicode i -> uint32 sa -> cut_at_zero q q' -> cut_at_zero i i' ->
    sw_get_slots x js cs msg view es (Some a) q i sa m = (m1, r) ->
    converted_swift view sw_why (let* v := get_slots_with_alternatives x en q' i' (Z.to_nat sa) in cs (OutSlots v)) m m1 r.
  Proof.
    intros C U Ui Hs Cq Ci E. unfold sw_get_slots in E. rewrite (pbind_value _ _ _ _ _ (sw_uint32_ok sa m Hs)) in E.
    eapply sw_ask_ends; [|exact E]. intros m2 s.
    destruct (results_handed x js cs msg no_zero m (es 0 m) a en _ q' m2 s C (c_string_text q q' U Cq)) as (_ & P & _).
    apply (P _ _ _ (c_string_text i i' Ui Ci)).
  Qed.
  Lemma sw_intents_ends m a en q q' m1 r :
    client_at (mem_world m) a en false -> unicode q -> cut_at_zero q q' ->
    sw_get_intents x js cs msg view es (Some a) q m = (m1, r) ->
    converted_swift view sw_why (let* v := get_intents (env_ord1 (es 0 m)) en q' in cs (OutIntents v)) m m1 r.
  Proof.
    intros C U Cq E. unfold sw_get_intents in E. eapply sw_ask_ends; [|exact E]. intros m2 s.
    destruct (results_handed x js cs msg no_zero m (es 0 m) a en _ q' m2 s C (c_string_text q q' U Cq)) as (_ & _ & P & _). exact P.
  Qed.
  Lemma sw_create_ends c o m m1 r :
    (forall w s, step x js cs (mem_world m) (es 0 m) c = (w, s) ->
       match o with
       | Ok en => s = ROk (OutClient (env_address (es 0 m))) /\
                  w = mkWorld ((env_address (es 0 m), mkClient en false) :: w_clients (mem_world m)) (w_error (mem_world m))
       | Err er => s = RKo /\ w = mkWorld (w_clients (mem_world m)) (Some er)
       | Panic => s = RPanic /\ w = mem_world m
       end) -> allocates c = None ->
    sw_create x js cs msg es c m = (m1, r) -> engine_made_swift sw_why o m m1 r.
  Proof.
    intros H A E. pose proof (create_cases x js cs msg (es 0) c o m H A) as F. unfold sw_create in E. destruct o as [en|er|]; cbn [engine_made_swift].
    - rewrite (pbind_value _ _ _ _ _ F) in E. cbn [ret] in E. inv E.
      eexists. split; [reflexivity|]. split; [reflexivity|]. split; [apply es_fresh|reflexivity].
    - rewrite (pbind_value _ _ _ _ _ F) in E. cbn beta iota in E. rewrite (throw_raises 1 m er) in E.
      inv E. split; [reflexivity|]. split; [reflexivity|]. eexists. reflexivity.
    - rewrite (pbind_crashed _ _ _ _ F) in E. inv E. reflexivity.
  Qed.
  Lemma sw_url_ends p p' m m1 r : unicode p -> cut_at_zero p p' ->
    sw_new_url x js cs msg es p m = (m1, r) -> engine_made_swift sw_why (env_dir (es 0 m) p') m m1 r.
  Proof. intros U C E. eapply sw_create_ends; [| |exact E]; [|reflexivity]. apply create_dir_step. apply c_string_text; assumption. Qed.
  Lemma sw_data_ends d m m1 r : d <> [] -> uint32 (Z.of_nat (List.length d)) ->
    sw_new_data x js cs msg es d m = (m1, r) -> engine_made_swift sw_why (env_zip (es 0 m) d) m m1 r.
  Proof.
    intros N L E. unfold sw_new_data in E. rewrite (pbind_value _ _ _ _ _ (sw_uint32_ok _ m L)) in E. destruct d as [|b d]; [congruence|].
    eapply sw_create_ends; [| |exact E]; [|reflexivity]. apply create_zip_step.
  Qed.
  Lemma sw_data_empty m : snd (sw_new_data x js cs msg es [] m) = Broken.
  Proof. reflexivity. Qed.

  (** ** Programs *)
  Definition is_message (ao : nat * (kind * output)) : Prop := exists s, snd ao = (KString, OutText s).
  (** The number of library errors in an ending. *)
  Definition errors1 {A} (r : ending A) : nat := match r with Raised (Some _) => 1 | _ => 0 end.
  Definition sw_tidy {A} (r : Memory * ending A) (m : Memory) : Prop :=
    match r with
    | (m1, (Value _ | Raised _) as e) => clients m1 = clients m /\ exists l, mem_objects m1 = l ++ mem_objects m /\ Forall is_message l /\ List.length l = errors1 (snd r)
    | (_, Crashed) => True
    | (_, Broken) => False
    end.
  Lemma sw_ask_tidy k c m : allocates c = Some k -> ~ misused (mem_world m) c -> sw_tidy (sw_ask es k c m) m.
  Proof.
    intros A0 U. pose proof (call_fills x js cs msg es 0 c k m es_fresh A0 U) as F. unfold M_Swift.sw_ask.
    destruct (ffi (es 0) (Call c) m) as [m1 [[[] p]|w| |]] eqn:E; cbn [fills_kind] in F.
    - destruct F as (a & o & m0 & -> & N & -> & O & K & S). rewrite (pbind_value _ _ _ _ _ E). cbn beta iota. destruct (view o) as [v|] eqn:Ev.
      + rewrite (finally_value _ _ _ (add m0 a k o) m0 v); [|erewrite pbind_value by apply read_added; rewrite Ev; reflexivity|apply destroy_added; exact N].
        split; [exact K|]. exists []. rewrite O. auto.
      + rewrite (finally_raised _ _ _ (add m0 a k o) m0 None); [|erewrite pbind_value by apply read_added; rewrite Ev; reflexivity|apply destroy_added; exact N].
        split; [exact K|]. exists []. rewrite O. auto.
    - destruct F as (-> & m0 & er & -> & O & K). rewrite (pbind_value _ _ _ _ _ E). cbn beta iota.
      rewrite (finally_raised _ _ _ _ _ _ (throw_raises 1 m0 er) (destroy_nothing x js cs msg _ _ _)). split; [exact K|].
      eexists [_]. cbn [set_error add mem_objects app]. rewrite O. split; [reflexivity|]. split; [|reflexivity]. repeat constructor. eexists. reflexivity.
    - contradiction.
    - rewrite (pbind_crashed _ _ _ _ E). exact I.
    - contradiction.
  Qed.
  Lemma sw_list_not l s : sw_list l = LData s -> ~ In CNull s.
  Proof.
    destruct l as [l|]; try discriminate. cbn [sw_list]. intros H. injection H as <-. intros I.
    apply in_map_iff in I as (t & I & _). discriminate.
  Qed.
  Lemma sw_uint_tidy {A} z (k : nat -> prog A) m : (forall n, sw_tidy (k n m) m) -> sw_tidy ((let% n := sw_uint32 z in k n) m) m.
  Proof.
    intros H. unfold sw_uint32. destruct (_ && _).
    - erewrite pbind_value by reflexivity. apply H.
    - erewrite pbind_crashed by reflexivity. exact I.
  Qed.
  Lemma sw_parse_tidy m a q wl bl ia sa : In a (clients m) -> sw_tidy (sw_parse x js cs msg view es (Some a) q wl bl ia sa m) m.
  Proof.
    intros Ca. unfold sw_parse. apply sw_uint_tidy. intros n. apply sw_uint_tidy. intros n'. apply sw_ask_tidy; [reflexivity|].
    intros [(a' & E & N)|[N|[(l & N & N')|N]]]; cbn [about lists In] in *.
    - injection E as <-. eapply hget_none_absent; eauto.
    - destruct N as [N|[N|[]]]; [destruct wl|destruct bl]; discriminate.
    - destruct N as [N|[N|[]]]; eapply sw_list_not; eauto.
    - discriminate.
  Qed.
  Lemma sw_slots_tidy m a q i sa : In a (clients m) -> sw_tidy (sw_get_slots x js cs msg view es (Some a) q i sa m) m.
  Proof.
    intros Ca. unfold sw_get_slots. apply sw_uint_tidy. intros n. apply sw_ask_tidy; [reflexivity|].
    eapply client_used; [exact Ca|reflexivity|reflexivity|discriminate].
  Qed.
  Lemma sw_intents_tidy m a q : In a (clients m) -> sw_tidy (sw_get_intents x js cs msg view es (Some a) q m) m.
  Proof.
    intros Ca. apply sw_ask_tidy; [reflexivity|]. eapply client_used; [exact Ca|reflexivity|reflexivity|discriminate].
  Qed.
  Definition sw_made (r : Memory * ending cptr) (m : Memory) : Prop :=
    match r with
    | (m1, Value p) => exists a, p = Some a /\ mem_objects m1 = mem_objects m /\ clients m1 = a :: clients m /\ ~ In a (in_use m)
    | (m1, Raised w) => clients m1 = clients m /\ exists s a, w = Some s /\ mem_objects m1 = (a, (KString, OutText s)) :: mem_objects m
    | (_, Crashed) => True
    | (_, Broken) => False
    end.
  Lemma engine_made_sw o m m1 r : engine_made_swift sw_why o m m1 r -> sw_made (m1, r) m.
  Proof.
    destruct o as [en|er|]; cbn [engine_made_swift].
    - intros (a & -> & O & N & C). exists a. unfold clients. rewrite C. auto.
    - intros (-> & C & a & O). cbn [sw_made]. unfold clients. rewrite C. eauto.
    - intros ->. exact I.
  Qed.
  (** Swift strings are Unicode texts. *)
  Lemma sw_url_made p m : unicode p -> sw_made (sw_new_url x js cs msg es p m) m.
  Proof.
    intros U. destruct (sw_new_url x js cs msg es p m) as [m1 r] eqn:E. eapply engine_made_sw. eapply sw_url_ends; [exact U|apply before_zero_cut|exact E].
  Qed.
  Lemma sw_data_made d m : d <> [] -> sw_made (sw_new_data x js cs msg es d m) m.
  Proof.
    clear no_zero.
    intros N. destruct (sw_new_data x js cs msg es d m) as [m1 r] eqn:E.
    destruct (Z_lt_dec (Z.of_nat (List.length d)) 4294967296) as [L|L].
    - eapply engine_made_sw. eapply sw_data_ends; [exact N|unfold uint32; lia|exact E].
    - unfold sw_new_data in E. rewrite (pbind_crashed _ _ m m) in E by (apply sw_uint32_bad; unfold uint32; lia). inv E. exact I.
  Qed.
End Swift.

Section History.
  Context (x : Ext) (js : output -> outcome str) (cs : output -> outcome output) (msg : option error -> str).
  Context {V : Type} (view : output -> option V).
  Hypothesis msg_no_zero : forall e, ~ In 0%N (msg e).
  Notation sw_step := (sw_step x js cs msg view).
  Notation sw_run := (sw_run x js cs msg view).

  (** [n]: the errors so far. *)
  Definition sw_clean (n : nat) (st : Sw) : Prop :=
    Forall is_message (mem_objects (sw_memory st)) /\ List.length (mem_objects (sw_memory st)) = n /\
    NoDup (clients (sw_memory st)) /\ NoDup (map fst (sw_variables st)) /\
    Permutation (map Some (clients (sw_memory st))) (map snd (sw_variables st)).
  Lemma sw_variable n st v p : sw_clean n st -> hget Nat.eqb v (sw_variables st) = Some p -> exists a, p = Some a /\ In a (clients (sw_memory st)).
  Proof.
    intros (_ & _ & _ & _ & P) H. apply hget_In in H; [|exact Nat.eqb_eq].
    assert (I : In p (map snd (sw_variables st))) by (apply in_map_iff; exists (v, p); auto).
    eapply Permutation_in in I; [|apply Permutation_sym; exact P]. apply in_map_iff in I as (a & <- & I). eauto.
  Qed.
  Lemma sw_about_clean n st v ask st1 r : sw_clean n st -> (forall m a, In a (clients m) -> sw_tidy (ask (Some a) m) m) ->
    sw_about (V := V) st v ask = (st1, r) -> r <> Broken /\ (r <> Crashed -> sw_clean (errors1 r + n) st1).
  Proof.
    intros C T E. unfold sw_about in E. destruct (hget Nat.eqb v (sw_variables st)) as [p|] eqn:G.
    - destruct (sw_variable n st v p C G) as (a & -> & I). specialize (T (sw_memory st) a I). unfold pbind in E.
      destruct C as (C1 & C2 & C3 & C4 & C5).
      destruct (ask (Some a) (sw_memory st)) as [m1 [s|w| |]]; cbn [sw_tidy] in T; cbn in E; inv E; try contradiction.
      + split; [discriminate|]. intros _. destruct T as (T1 & l & T2 & T3 & T4). unfold sw_clean. cbn [sw_memory sw_variables]. rewrite T1, T2, app_length.
        cbn [snd errors1] in T4. cbn [errors1]. rewrite T4. split; [apply Forall_app; auto|]. auto.
      + split; [discriminate|]. intros _. destruct T as (T1 & l & T2 & T3 & T4). unfold sw_clean. cbn [sw_memory sw_variables]. rewrite T1, T2, app_length.
        cbn [snd] in T4. rewrite T4. split; [apply Forall_app; auto|]. split; [|auto]. destruct w; cbn [errors1]; auto.
      + split; [discriminate|]. congruence.
    - inv E. split; [discriminate|auto].
  Qed.
  Lemma sw_new_clean n st es v new st1 r : sw_clean n st -> sw_made (new (sw_memory st)) (sw_memory st) ->
    sw_new x js cs msg (V := V) st es v new = (st1, r) -> r <> Broken /\ (r <> Crashed -> sw_clean (errors1 r + n) st1).
  Proof.
    intros C M E. unfold sw_new in E. pose proof C as (C1 & C2 & C3 & C4 & C5).
    destruct (new (sw_memory st)) as [m1 [p|w| |]] eqn:Ei; cbn [sw_made] in M.
    - destruct M as (a & -> & M1 & M2 & M3). rewrite (pbind_value _ _ _ _ _ Ei) in E.
      assert (Na : ~ In a (clients (sw_memory st))) by (intros I; apply M3; unfold in_use; apply in_or_app; left; exact I).
      assert (Nm : NoDup (clients m1)) by (rewrite M2; constructor; assumption).
      pose proof (hinsert_values (V := cptr) v (Some a) (sw_variables st)) as HV.
      destruct (hinsert_keys (V := cptr) v (Some a) (sw_variables st) C4) as [HK _].
      destruct (hget Nat.eqb v (sw_variables st)) as [old|] eqn:G.
      + destruct (sw_variable n st v old C G) as (b' & -> & Ib).
        destruct (delete_client x js cs msg (es 3) m1 b') as (m2 & D & D1 & D2 & D3); [rewrite M2; right; exact Ib|exact Nm|].
        unfold sw_deinit in E. rewrite (pbind_value _ _ _ _ _ D) in E. cbn [ret] in E. inv E. split; [discriminate|]. intros _.
        unfold sw_clean. cbn [sw_memory sw_variables errors1 Nat.add]. rewrite D1, M1. split; [exact C1|]. split; [reflexivity|].
        split; [exact D3|]. split; [exact HK|].
        apply (Permutation_cons_inv (a := Some b')). rewrite HV, <- C5. rewrite <- map_cons. rewrite <- (map_cons Some a). rewrite <- M2.
        apply Permutation_map. apply Permutation_sym. exact D2.
      + rewrite (pbind_value _ _ _ m1 tt eq_refl) in E. cbn [ret] in E. inv E. split; [discriminate|]. intros _.
        unfold sw_clean. cbn [sw_memory sw_variables errors1 Nat.add]. rewrite M1, M2. split; [exact C1|]. split; [reflexivity|].
        split; [rewrite <- M2; exact Nm|]. split; [exact HK|]. rewrite HV. cbn [map]. constructor. exact C5.
    - destruct M as (M1 & s & a & -> & M2). rewrite (pbind_raised _ _ _ _ _ Ei) in E. inv E. split; [discriminate|]. intros _.
      unfold sw_clean. cbn [sw_memory sw_variables errors1]. rewrite M1, M2. split; [constructor; [eexists; reflexivity|exact C1]|].
      split; [reflexivity|]. auto.
    - rewrite (pbind_crashed _ _ _ _ Ei) in E. inv E. split; [discriminate|congruence].
    - contradiction.
  Qed.
  Lemma sw_step_clean n st es o st1 r : allocator es -> sw_data_ok o -> sw_clean n st -> sw_step st es o = (st1, r) ->
    r <> Broken /\ (r <> Crashed -> sw_clean (errors1 r + n) st1).
  Proof.
    intros A D C E. destruct o as [v p|v d|v q wl bl ia sa|v q i sa|v q|v]; cbn [M_Swift.sw_step] in E.
    - eapply sw_new_clean; [exact C| |exact E]. apply sw_url_made; [exact msg_no_zero|exact A|exact D].
    - eapply sw_new_clean; [exact C| |exact E]. apply sw_data_made; [exact msg_no_zero|exact A|exact D].
    - eapply sw_about_clean; [exact C| |exact E]. intros m a I. apply sw_parse_tidy; assumption.
    - eapply sw_about_clean; [exact C| |exact E]. intros m a I. apply sw_slots_tidy; assumption.
    - eapply sw_about_clean; [exact C| |exact E]. intros m a I. apply sw_intents_tidy; assumption.
    - destruct (hget Nat.eqb v (sw_variables st)) as [p|] eqn:G.
      + destruct (sw_variable n st v p C G) as (a & -> & I). destruct C as (C1 & C2 & C3 & C4 & C5).
        destruct (delete_client x js cs msg (es 0) (sw_memory st) a I C3) as (m1 & Dl & D1 & D2 & D3).
        unfold sw_deinit in E. rewrite (pbind_value _ _ _ _ _ Dl) in E. cbn [ret] in E. inv E. split; [discriminate|]. intros _.
        unfold sw_clean. cbn [sw_memory sw_variables errors1 Nat.add]. fold (without v (sw_variables st)). rewrite D1.
        split; [exact C1|]. split; [reflexivity|]. split; [exact D3|].
        split; [apply without_nodup; exact C4|]. apply (Permutation_cons_inv (a := Some a)).
        rewrite <- (without_values (V := cptr) v (Some a) (sw_variables st) C4 G), <- C5, <- map_cons. apply Permutation_map. apply Permutation_sym. exact D2.
      + inv E. split; [discriminate|auto].
  Qed.
  Lemma sw_run_clean l : forall n st st1 rs, (forall es o, In (es, o) l -> allocator es /\ sw_data_ok o) -> sw_clean n st ->
    sw_run st l = (st1, rs) -> ~ In Broken rs /\ (~ In Crashed rs -> sw_clean (library_errors rs + n) st1).
  Proof.
    induction l as [|[es o] l IH]; intros n st st1 rs A C E.
    - inv E. split; [intros []|auto].
    - cbn [M_Swift.sw_run] in E. destruct (sw_step st es o) as [st2 r] eqn:S. destruct (A es o (or_introl eq_refl)) as [A1 A2].
      destruct (sw_step_clean n st es o st2 r A1 A2 C S) as [B K].
      assert (Rest : forall s, sw_run st2 l = (st1, s) -> r <> Crashed -> ~ In Broken s /\ (~ In Crashed s -> sw_clean (library_errors s + (errors1 r + n)) st1)).
      { intros s R N. apply (IH (errors1 r + n) st2 st1 s); [intros e p I; apply A; right; exact I|apply K; exact N|exact R]. }
      destruct r as [v|w| |].
      + destruct (sw_run st2 l) as [st3 s] eqn:R. inv E. destruct (Rest s eq_refl) as [R1 R2]; [discriminate|].
        split; [intros [H|H]; [discriminate|auto]|]. intros H. apply R2. intros I. apply H. right. exact I.
      + destruct (sw_run st2 l) as [st3 s] eqn:R. inv E. destruct (Rest s eq_refl) as [R1 R2]; [discriminate|].
        split; [intros [H|H]; [discriminate|auto]|]. intros H. cbn [library_errors].
        replace ((match w with Some _ => Datatypes.S (library_errors s) | None => library_errors s end) + n) with (library_errors s + (errors1 (@Raised (option V) w) + n)) by (destruct w; cbn [errors1]; lia).
        apply R2. intros I. apply H. right. exact I.
      + inv E. split; [intros [H|[]]; discriminate|]. intros H. exfalso. apply H. left. reflexivity.
      + congruence.
  Qed.
End History.

Lemma sw_program x js cs msg {V} (view : output -> option V) : (forall e, ~ In 0%N (msg e)) ->
  forall l st rs, (forall es o, In (es, o) l -> allocator es /\ sw_data_ok o) ->
  sw_run x js cs msg view (mkSw empty_memory []) l = (st, rs) ->
  ~ In Broken rs /\
  (~ In Crashed rs ->
   (forall a k o, In (a, (k, o)) (mem_objects (sw_memory st)) -> k = KString) /\
   List.length (mem_objects (sw_memory st)) = library_errors rs /\
   Permutation (map Some (clients (sw_memory st))) (map snd (sw_variables st))).
Proof.
  intros MZ l st rs A E. destruct (sw_run_clean x js cs msg view MZ l 0 (mkSw empty_memory []) st rs A) as [B C]; [|exact E|].
  - repeat split; cbn; constructor.
  - split; [exact B|]. intros N. destruct (C N) as (C1 & C2 & _ & _ & C5). rewrite Nat.add_0_r in C2. split; [|auto].
    intros a k o I. eapply Forall_forall in C1; [|exact I]. destruct C1 as (s & C1). cbn [snd] in C1. inv C1. reflexivity.
Qed.
Lemma sw_number_crash x js cs msg {V} (view : output -> option V) es p q wl bl i ia sa m : ~ uint32 ia \/ ~ uint32 sa ->
  sw_parse x js cs msg view es p q wl bl ia sa m = (m, Crashed) /\
  (~ uint32 sa -> sw_get_slots x js cs msg view es p q i sa m = (m, Crashed)).
Proof.
  intros H. split.
  - unfold sw_parse. assert (D : uint32 ia \/ ~ uint32 ia) by (unfold uint32; lia). destruct D as [D|D].
    + rewrite (pbind_value _ _ _ _ _ (sw_uint32_ok ia m D)). destruct H as [H|H]; [contradiction|].
      apply pbind_crashed. apply sw_uint32_bad. exact H.
    + apply pbind_crashed. apply sw_uint32_bad. exact D.
  - intros N. apply pbind_crashed. apply sw_uint32_bad. exact N.
Qed.
Lemma sw_created x js cs msg : (forall e, ~ In 0%N (msg e)) -> forall es, allocator es -> forall m m1 r,
  (forall p p', unicode p -> cut_at_zero p p' -> sw_new_url x js cs msg es p m = (m1, r) ->
     engine_made_swift (fun e => msg (Some e)) (env_dir (es 0 m) p') m m1 r) /\
  (forall d, d <> [] -> uint32 (Z.of_nat (List.length d)) -> sw_new_data x js cs msg es d m = (m1, r) ->
     engine_made_swift (fun e => msg (Some e)) (env_zip (es 0 m) d) m m1 r).
Proof. intros M es A m m1 r. split; intros; [eapply sw_url_ends|eapply sw_data_ends]; eauto. Qed.
