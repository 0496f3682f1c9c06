(** Proofs about the results of the Swift wrapper. *)
From Coq Require Import String List NArith ZArith Bool Arith Lia.
From Verif Require Import Base P_Base F32 M_Types M_Engine M_Filler S_Filler M_Load M_Ffi S_Ffi P_Ffi M_Memory S_Memory M_Wrap M_Swift S_Wrap P_Wrap P_Swift
  M_Structs S_Structs.
Import ListNotations.
Local Open Scope nat_scope.

Definition conv {V} (r : ending V) (bad : Prop) (Q : V -> Prop) : Prop :=
  (r = Raised None /\ bad) \/ (~ bad /\ exists v, r = Value v /\ Q v).

Lemma conv_bind {A B} (r : ending A) (k : A -> ending B) bad bad' (Q : A -> Prop) Q' :
  conv r bad Q -> (forall a, Q a -> conv (k a) bad' Q') -> conv (let& x := r in k x) (bad \/ bad') Q'.
Proof.
  intros [[-> W]|[N (a & -> & H)]] K; [left; auto|].
  cbn [ebind]. destruct (K a H) as [[-> W]|[N' (b & -> & H')]]; [left; auto|].
  right. split; [tauto|]. eauto.
Qed.
Lemma conv_iff {A} (r : ending A) bad bad' Q : (bad <-> bad') -> conv r bad Q -> conv r bad' Q.
Proof. intros I [[-> B]|[N H]]; [left|right]; tauto. Qed.
Lemma conv_weak {A} (r : ending A) bad (Q Q' : A -> Prop) : conv r bad Q -> (forall a, Q a -> Q' a) -> conv r bad Q'.
Proof. intros [[-> B]|[N (v & -> & H)]] I; [left|right]; eauto 6. Qed.
Lemma conv_value {A} (v : A) (Q : A -> Prop) : Q v -> conv (Value v) False Q.
Proof. intros H. right. split; [tauto|]. eauto. Qed.

Lemma emap_conv {A B V} (f : A -> ending V) (R : A -> B -> Prop) (bad : B -> Prop) (Q : V -> B -> Prop) d l :
  (forall a b, R a b -> conv (f a) (bad b) (fun v => Q v b)) -> Forall2 R d l ->
  conv (emap f d) (exists b, In b l /\ bad b) (fun vs => Forall2 Q vs l).
Proof.
  intros H F. induction F as [|a b d l Hab F IH]; cbn [emap].
  { right. split; [intros (b & [] & _)|]. exists []. split; auto. }
  apply (conv_iff _ (bad b \/ (exists b', In b' l /\ bad b') \/ False)).
  { split; [intros [X|[(b' & I & X)|[]]]; [exists b|exists b']; simpl; auto|].
    intros (b' & [->|I] & X); [auto|right; left; eauto]. }
  eapply conv_bind; [exact (H _ _ Hab)|]. intros v Hv. cbn beta.
  eapply conv_bind; [exact IH|]. intros vs Hvs. apply conv_value. constructor; auto.
Qed.
Lemma Forall2_len {A B} (R : A -> B -> Prop) l m : Forall2 R l m -> length l = length m.
Proof. induction 1; simpl; auto. Qed.
Lemma array_conv {A B V} (f : A -> ending V) (R : A -> B -> Prop) (bad : B -> Prop) (Q : V -> B -> Prop) c l :
  (forall a b, R a b -> conv (f a) (bad b) (fun v => Q v b)) -> array_of R c l ->
  conv (sw_array f (Some c)) (exists b, In b l /\ bad b) (fun vs => Forall2 Q vs l).
Proof.
  intros H (d & D & N & F). unfold sw_array. cbn [pointee ebind]. rewrite D, N.
  rewrite (proj2 (Z.ltb_ge _ _)) by lia. rewrite Nat2Z.id, <- (Forall2_len _ _ _ F), Nat.leb_refl, firstn_all.
  exact (emap_conv _ _ _ _ _ _ H F).
Qed.

Section View.
  Context (repaired : list byte -> str).

  Lemma bytes_text b s : text (CBytes b) s -> sw_bytes repaired b = s.
  Proof. intros [U E]. injection E as ->. unfold sw_bytes. rewrite (proj2 (utf8_iff _ s)); auto. Qed.
  Lemma text_text c s : text c s -> sw_text repaired c = Value s.
  Proof. intros T. destruct c as [|b]; [destruct T; discriminate|]. simpl. rewrite (bytes_text _ _ T). reflexivity. Qed.
  Lemma text_nil c o : text_or_null c o -> sw_text_or_nil repaired c = o.
  Proof.
    destruct o as [s|]; simpl; [|intros ->; reflexivity]. intros T. destruct c as [|b]; [destruct T; discriminate|].
    simpl. rewrite (bytes_text _ _ T). reflexivity.
  Qed.
  Lemma grain_read g : sw_grain (grain_code g) = Value g.
  Proof. destruct g; reflexivity. Qed.
  Lemma precision_read p : sw_precision (precision_code p) = Value p.
  Proof. destruct p; reflexivity. Qed.
  Lemma low_half_spec z : (- 2 ^ 31 <= low_half z < 2 ^ 31)%Z /\ exists k, (low_half z = z + k * 2 ^ 32)%Z.
  Proof.
    unfold low_half. change (2 ^ 31)%Z with 2147483648%Z. change (2 ^ 32)%Z with 4294967296%Z.
    pose proof (Z.mod_pos_bound z 4294967296 ltac:(lia)). pose proof (Z.div_mod z 4294967296 ltac:(lia)).
    destruct (Z.ltb_spec (z mod 4294967296) 2147483648); split; try lia.
    - exists (- (z / 4294967296))%Z. lia.
    - exists (- (z / 4294967296) - 1)%Z. lia.
  Qed.
  Lemma low_half_small z : (- 2 ^ 31 <= z < 2 ^ 31)%Z -> low_half z = z.
  Proof.
    intros H. destruct (low_half_spec z) as [B (k & K)].
    change (2 ^ 31)%Z with 2147483648%Z in *. change (2 ^ 32)%Z with 4294967296%Z in *. lia.
  Qed.

  Lemma interval_shown c from to : stands_for c (VInterval from to) -> sw_slot_value repaired c = Value (SwInterval from from).
  Proof. intros H. inversion H; subst. unfold sw_slot_value. cbn -[sw_text_or_nil].
    match goal with T : text_or_null _ from |- _ => rewrite (text_nil _ _ T) end. reflexivity.
  Qed.
  Lemma ordinal_shown c z : stands_for c (VOrdinal z) ->
    exists n, sw_slot_value repaired c = Value (SwOrdinal n) /\ (- 2 ^ 31 <= n < 2 ^ 31)%Z /\ exists k, (n = z + k * 2 ^ 32)%Z.
  Proof.
    intros H. inversion H; subst. exists (low_half z). split; [reflexivity|]. destruct (low_half_spec z); auto.
  Qed.

  Lemma value_conv c o : stands_for c o -> conv (sw_slot_value repaired c) (place o) (fun v => ~ damaged o -> says v o).
  Proof.
    intros H. destruct H;
      try (match goal with T : text (CBytes _) _ |- _ => apply bytes_text in T end;
           unfold sw_slot_value; cbn -[sw_bytes];
           first [left; split; [reflexivity|exact I] | apply conv_value; intros _; exact H]).
    - apply conv_value. intros _. reflexivity.
    - apply conv_value. intros D. apply low_half_small. simpl in D. change (2 ^ 31)%Z with 2147483648%Z in *. lia.
    - unfold sw_slot_value. cbn -[sw_text sw_grain sw_precision grain_code precision_code]. rewrite (text_text _ _ H).
      cbn -[sw_grain sw_precision grain_code precision_code]. rewrite grain_read. cbn -[sw_precision precision_code].
      rewrite precision_read. apply conv_value. intros _. simpl. auto.
    - unfold sw_slot_value. cbn -[sw_text_or_nil]. rewrite (text_nil _ _ H). apply conv_value. intros D. simpl in D.
      simpl. split; auto. destruct from as [a|], to as [b|]; try (exfalso; apply D; discriminate); auto.
      destruct (list_eq_dec N.eq_dec a b) as [->|N]; auto. exfalso. apply D. intros E. injection E. auto.
    - unfold sw_slot_value. cbn -[sw_text_or_nil sw_precision precision_code]. rewrite precision_read, (text_nil _ _ H).
      apply conv_value. intros _. simpl. auto.
    - unfold sw_slot_value. cbn -[sw_text_or_nil]. rewrite (text_nil _ _ H). apply conv_value. intros _. simpl. auto.
    - unfold sw_slot_value. cbn -[sw_precision precision_code]. rewrite precision_read. apply conv_value. intros _. simpl. auto.
    - apply conv_value. intros _. reflexivity.
  Qed.

  Context (reading : str -> value).
  Notation value_of := (value_of reading).
  Notation slot_stands_for := (slot_stands_for reading).
  Notation slot_says := (slot_says reading).

  Definition slot_bad (P : value -> Prop) (s : Slot) : Prop := exists v, In v (sl_value s :: sl_alternatives s) /\ P (value_of v).
  Definition score_ok (s : Slot) : Prop := forall f, sl_confidence s = Some f -> fle f0 f = true.

  Lemma minus_one : fle f0 (f32_of_Z (-1)) = false.
  Proof. vm_compute. reflexivity. Qed.

  Lemma slot_conv c s : slot_stands_for c s ->
    conv (sw_slot repaired c) (slot_bad place s) (fun w => ~ slot_bad damaged s -> score_ok s -> slot_says w s).
  Proof.
    intros ((v & V & SV) & (a & A & SA) & TR & TE & TN & RS & RE & SC). unfold sw_slot.
    rewrite (text_text _ _ TR), V, A, (text_text _ _ TE), (text_text _ _ TN). cbn [ebind pointee].
    apply (conv_iff _ (place (value_of (sl_value s)) \/ (exists o, In o (sl_alternatives s) /\ place (value_of o)) \/ False)).
    { unfold slot_bad. split.
      - intros [P|[(o & I & P)|[]]]; [exists (sl_value s)|exists o]; simpl; auto.
      - intros (o & [<-|I] & P); [auto|right; left; eauto]. }
    eapply conv_bind; [exact (value_conv _ _ SV)|]. intros w W. cbn beta.
    eapply conv_bind.
    { apply (array_conv _ (fun v o => stands_for v (value_of o)) (fun o => place (value_of o))
               (fun w o => ~ damaged (value_of o) -> says w (value_of o))); [|exact SA].
      intros v' o S'. exact (value_conv _ _ S'). }
    intros ws WS. cbn beta. apply conv_value. intros D O. unfold S_Structs.slot_says.
    cbn [ss_value ss_alternatives ss_raw ss_entity ss_name ss_range ss_score].
    split; [apply W; intros B; apply D; exists (sl_value s); simpl; auto|].
    split.
    { assert (D' : forall o, In o (sl_alternatives s) -> ~ damaged (value_of o))
        by (intros o I B; apply D; exists o; simpl; auto).
      clear - WS D'. induction WS as [|w o ws l H F IH]; constructor; [apply H; apply D'; left; auto|].
      apply IH. intros o' I. apply D'. right. auto. }
    rewrite RS, RE, SC. repeat (split; [reflexivity|]).
    destruct (sl_confidence s) as [f|] eqn:E; [rewrite (O f E); auto|rewrite minus_one; auto].
  Qed.

  Lemma Forall2_good {A B} (Q : A -> B -> Prop) (G : B -> Prop) l m :
    Forall2 (fun a b => G b -> Q a b) l m -> (forall b, In b m -> G b) -> Forall2 Q l m.
  Proof. induction 1; intros H'; constructor; auto using in_eq. apply IHForall2. intros b I. apply H'. right. auto. Qed.

  Definition fine (s : Slot) : Prop := ~ slot_bad damaged s /\ score_ok s.
  Lemma slots_conv a l : array_of slot_stands_for a l ->
    conv (sw_array (sw_slot repaired) (Some a)) (exists s, In s l /\ slot_bad place s)
         (fun ws => (forall s, In s l -> fine s) -> Forall2 slot_says ws l).
  Proof.
    intros H. eapply conv_weak.
    { apply (array_conv _ slot_stands_for (slot_bad place) (fun w s => fine s -> slot_says w s)); [|exact H].
      intros c s S. eapply conv_weak; [exact (slot_conv _ _ S)|]. intros w W [F1 F2]. auto. }
    intros ws F G. exact (Forall2_good _ _ _ _ F G).
  Qed.

  Lemma intent_conv c i : intent_stands_for c i -> intent_says (sw_intent repaired c) i.
  Proof. intros [T S]. unfold sw_intent. split; cbn [si_name si_score]; auto. apply text_nil. exact T. Qed.

  Lemma alternative_conv c a : alternative_stands_for reading c a ->
    conv (sw_alternative repaired c) (exists s, In s (al_slots a) /\ slot_bad place s)
         (fun w => (forall s, In s (al_slots a) -> fine s) ->
            intent_says (sa_intent w) (al_intent a) /\ Forall2 slot_says (sa_slots w) (al_slots a)).
  Proof.
    intros ((i & I & SI) & (sl & S & SS)). unfold sw_alternative. rewrite I, S. cbn [pointee ebind].
    apply (conv_iff _ ((exists s, In s (al_slots a) /\ slot_bad place s) \/ False)); [tauto|].
    eapply conv_bind; [exact (slots_conv _ _ SS)|]. intros ws W. cbn beta. apply conv_value. intros F. cbn [sa_intent sa_slots].
    split; [apply intent_conv; exact SI|auto].
  Qed.

  Lemma output_conv c o : output_stands_for reading c o ->
    conv (sw_output_of repaired c) (carries reading o place)
         (fun v => ~ carries reading o damaged -> scores_ok o -> output_says reading v o).
  Proof.
    assert (CF : forall o l, slots_of o = l -> ~ carries reading o damaged -> scores_ok o -> forall s, In s l -> fine s).
    { intros o' l E D S s I. subst l. split; [|intros f; apply S; exact I]. intros (v & V & B). apply D. exists s, v. auto. }
    destruct c as [c|c|c], o as [?|r|l|l|?|]; try contradiction; cbn [output_stands_for sw_output_of].
    - intros (TI & (i & I & SI) & (sl & S & SS) & (al & A & SA)). unfold sw_result.
      rewrite (text_text _ _ TI), I, S, A. cbn [pointee ebind].
      apply (conv_iff _ (((exists s, In s (ps_slots r) /\ slot_bad place s) \/
          (exists a, In a (ps_alternatives r) /\ exists s, In s (al_slots a) /\ slot_bad place s) \/ False) \/ False)).
      { unfold carries, slot_bad. cbn [slots_of]. split.
        - intros [[(s & J & v & V & P)|[(a & J & s & K & v & V & P)|[]]]|[]]; exists s, v; repeat split; auto; apply in_or_app; [auto|].
          right. apply in_flat_map. eauto.
        - intros (s & v & J & V & P). left. apply in_app_or in J as [J|J]; [left; eauto|]. right. left.
          apply in_flat_map in J as (a & J & K). eauto 8. }
      eapply (conv_bind _ _ _ _ (fun w => ~ carries reading (OutParse r) damaged -> scores_ok (OutParse r) -> output_says reading (SwParsed w) (OutParse r)));
        [|intros w W; apply conv_value; exact W].
      eapply conv_bind; [exact (slots_conv _ _ SS)|]. intros ws W. cbn beta.
      eapply conv_bind.
      { apply (array_conv _ (alternative_stands_for reading) (fun a => exists s, In s (al_slots a) /\ slot_bad place s)
          (fun w a => (forall s, In s (al_slots a) -> fine s) ->
            intent_says (sa_intent w) (al_intent a) /\ Forall2 slot_says (sa_slots w) (al_slots a))); [|exact SA].
        intros x y. apply alternative_conv. }
      intros xs X. cbn beta. apply conv_value. intros D O. cbn [output_says sr_input sr_intent sr_slots sr_alternatives].
      pose proof (CF (OutParse r) _ eq_refl D O) as F. cbn [slots_of] in F.
      split; [reflexivity|]. split; [apply intent_conv; exact SI|]. split; [apply W; intros s J; apply F; apply in_or_app; auto|].
      apply (Forall2_good _ (fun a => forall s, In s (al_slots a) -> fine s) _ _ X).
      intros a J s K. apply F. apply in_or_app. right. apply in_flat_map. eauto.
    - intros H. apply (conv_iff _ ((exists s, In s l /\ slot_bad place s) \/ False)).
      { unfold carries, slot_bad. cbn [slots_of]. split; [intros [(s & J & v & V & P)|[]]; eauto|intros (s & v & J & V & P); left; eauto]. }
      eapply conv_bind; [exact (slots_conv _ _ H)|]. intros ws W. cbn beta. apply conv_value. intros D O.
      cbn [output_says]. apply W. exact (CF (OutSlots l) l eq_refl D O).
    - intros H. apply (conv_iff _ ((exists i : IntentResult, In i l /\ False) \/ False)).
      { unfold carries. cbn [slots_of]. split; [intros [(i & _ & [])|[]]|intros (s & v & [] & _)]. }
      eapply conv_bind.
      { apply (array_conv _ intent_stands_for (fun _ => False) intent_says); [|exact H].
        intros x y S. apply conv_value. apply intent_conv. exact S. }
      intros ws W. cbn beta. apply conv_value. intros _ _. exact W.
  Qed.
End View.

(** Statements of the properties *)
Lemma value_place rep c o : stands_for c o -> place o -> sw_slot_value rep c = Raised None.
Proof. intros S P. destruct (value_conv rep _ _ S) as [[E _]|[N _]]; auto. contradiction. Qed.
Lemma value_shown rep c o : stands_for c o -> ~ place o -> ~ damaged o -> exists v, sw_slot_value rep c = Value v /\ says v o.
Proof. intros S P D. destruct (value_conv rep _ _ S) as [[_ E]|[_ (v & E & H)]]; [contradiction|eauto]. Qed.
Lemma output_shown rep reading c o : output_stands_for reading c o -> ~ carries reading o place -> ~ carries reading o damaged -> scores_ok o ->
  exists v, sw_output_of rep c = Value v /\ output_says reading v o.
Proof. intros S P D O. destruct (output_conv rep _ _ _ S) as [[_ E]|[_ (v & E & H)]]; [contradiction|eauto]. Qed.
Lemma output_place rep reading c o : output_stands_for reading c o -> carries reading o place -> sw_output_of rep c = Raised None.
Proof. intros S P. destruct (output_conv rep _ _ _ S) as [[E _]|[N _]]; auto. contradiction. Qed.
Lemma output_valid rep reading c o : output_stands_for reading c o -> sw_output_of rep c <> Crashed /\ sw_output_of rep c <> Broken.
Proof. intros S. destruct (output_conv rep _ _ _ S) as [[-> _]|[_ (v & -> & _)]]; split; discriminate. Qed.
Lemma interval_refuted rep : ~ (forall c from to v, stands_for c (VInterval from to) -> sw_slot_value rep c = Value v -> says v (VInterval from to)).
Proof.
  intros H. specialize (H (mkCSV (Some (CellInterval CNull (CBytes [52%N]))) 5) None (Some [52%N]) (SwInterval None None)).
  assert (S : stands_for (mkCSV (Some (CellInterval CNull (CBytes [52%N]))) 5) (VInterval None (Some [52%N]))).
  { constructor; [reflexivity|]. split; [|reflexivity]. intros c [<-|[]]. left. reflexivity. }
  destruct (H S eq_refl) as [_ E]. discriminate.
Qed.
Lemma ordinal_refuted rep : ~ (forall c z v, stands_for c (VOrdinal z) -> sw_slot_value rep c = Value v -> says v (VOrdinal z)).
Proof.
  intros H. specialize (H (mkCSV (Some (CellInt64 4294967297)) 3) 4294967297%Z (SwOrdinal 1)).
  assert (S : stands_for (mkCSV (Some (CellInt64 4294967297)) 3) (VOrdinal 4294967297)) by (constructor; split; [discriminate|reflexivity]).
  specialize (H S eq_refl). discriminate.
Qed.

(** ** Through the whole wrapper *)
Lemma reaches rep reading layout o why m m1 r : output_stands_for reading (layout o) o ->
  converted_swift (sw_view rep layout) why (Ok o) m m1 r -> shown_in_swift reading o m m1 r.
Proof.
  intros S [E M]. split; auto. unfold sw_view in E. destruct (output_conv rep _ _ _ S) as [[F B]|[N (v & F & H)]]; rewrite F in E; split; try tauto.
  intros _. eauto.
Qed.
Lemma swift_parse_shown x js cs msg rep reading layout es m a en q q' wl wl' bl bl' ia sa v m1 r :
  (forall o s, js o = Ok s -> ~ In 0%N s) -> (forall e, ~ In 0%N (msg e)) -> allocator es ->
  client_at (mem_world m) a en false -> unicode q -> unicode_list wl -> unicode_list bl -> uint32 ia -> uint32 sa ->
  cut_at_zero q q' -> cut_list wl wl' -> cut_list bl bl' ->
  parse_with_alternatives x (env_ord1 (es 0 m)) (env_ord2 (es 0 m)) en q' wl' bl' (Z.to_nat ia) (Z.to_nat sa) = Ok v ->
  cs (OutParse v) = Ok (OutParse v) -> output_stands_for reading (layout (OutParse v)) (OutParse v) ->
  sw_parse x js cs msg (sw_view rep layout) es (Some a) q wl bl ia sa m = (m1, r) -> shown_in_swift reading (OutParse v) m m1 r.
Proof.
  intros J Z A C U UW UB UI US CQ CW CB P CS S E.
  pose proof (sw_parse_ends x js cs msg (sw_view rep layout) J Z es A m a en q q' wl wl' bl bl' ia sa m1 r C U UW UB UI US CQ CW CB E) as H.
  rewrite P in H. cbn [bind] in H. rewrite CS in H. exact (reaches _ _ _ _ _ _ _ _ S H).
Qed.
Lemma swift_slots_shown x js cs msg rep reading layout es m a en q q' i i' sa v m1 r :
  (forall o s, js o = Ok s -> ~ In 0%N s) -> (forall e, ~ In 0%N (msg e)) -> allocator es ->
  client_at (mem_world m) a en false -> unicode q -> unicode i -> uint32 sa -> cut_at_zero q q' -> cut_at_zero i i' ->
  get_slots_with_alternatives x en q' i' (Z.to_nat sa) = Ok v ->
  cs (OutSlots v) = Ok (OutSlots v) -> output_stands_for reading (layout (OutSlots v)) (OutSlots v) ->
  sw_get_slots x js cs msg (sw_view rep layout) es (Some a) q i sa m = (m1, r) -> shown_in_swift reading (OutSlots v) m m1 r.
Proof.
  intros J Z A C U UI US CQ CI P CS S E.
  pose proof (sw_slots_ends x js cs msg (sw_view rep layout) J Z es A m a en q q' i i' sa m1 r C U UI US CQ CI E) as H.
  rewrite P in H. cbn [bind] in H. rewrite CS in H. exact (reaches _ _ _ _ _ _ _ _ S H).
Qed.
Lemma swift_intents_shown x js cs msg rep reading layout es m a en q q' v m1 r :
  (forall o s, js o = Ok s -> ~ In 0%N s) -> (forall e, ~ In 0%N (msg e)) -> allocator es ->
  client_at (mem_world m) a en false -> unicode q -> cut_at_zero q q' ->
  get_intents (env_ord1 (es 0 m)) en q' = Ok v ->
  cs (OutIntents v) = Ok (OutIntents v) -> output_stands_for reading (layout (OutIntents v)) (OutIntents v) ->
  sw_get_intents x js cs msg (sw_view rep layout) es (Some a) q m = (m1, r) ->
  exists l, r = Value (SwIntents l) /\ Forall2 intent_says l v /\ same_memory m m1.
Proof.
  intros J Z A C U CQ P CS S E.
  pose proof (sw_intents_ends x js cs msg (sw_view rep layout) J Z es A m a en q q' m1 r C U CQ E) as H.
  rewrite P in H. cbn [bind] in H. rewrite CS in H. destruct (reaches _ _ _ _ _ _ _ _ S H) as [M [_ H1]].
  assert (N : forall Q, ~ carries reading (OutIntents v) Q) by (intros Q (s & w & [] & _)).
  destruct (H1 (N _)) as (w & -> & W). specialize (W (N _)).
  assert (O : scores_ok (OutIntents v)) by (intros s f []). specialize (W O). destruct w as [w|w|w]; try contradiction. eauto.
Qed.

(** ** Null pointers *)
Lemma null_value rep c : cv_value c = None -> (1 <= cv_type c <= 12)%Z -> sw_slot_value rep c = Crashed.
Proof.
  destruct c as [v t]. cbn [cv_value cv_type]. intros -> H.
  assert (K : In t [1; 2; 3; 4; 5; 6; 7; 8; 9; 10; 11; 12]%Z) by (cbn; lia).
  cbn [In] in K. repeat (destruct K as [<-|K]; [reflexivity|]). destruct K.
Qed.
Lemma null_pointers rep :
  (forall c, cv_value c = None -> (1 <= cv_type c <= 12)%Z -> sw_slot_value rep c = Crashed) /\
  (forall r, cr_input r = CNull \/ cr_intent r = None \/ cr_slots r = None -> sw_result rep r = Crashed).
Proof.
  split; [exact (null_value rep)|].
  intros [[|b] [i|] sl al]; cbn [cr_input cr_intent cr_slots]; intros [H|[H|H]]; try discriminate; try reflexivity.
  subst. reflexivity.
Qed.
