(** Structures for the demos of the Swift results: one for every result. *)
From Coq Require Import String List NArith ZArith Bool Arith Lia.
From Verif Require Import Base F32 M_Types M_Engine M_Filler S_Filler M_Load M_Ffi S_Ffi P_Ffi M_Memory S_Memory M_Wrap M_Kotlin M_Swift S_Wrap P_Wrap P_Swift
  M_Structs S_Structs P_Structs Demo Demo_Load Demo_Ffi Demo_Wrap.
Import ListNotations.
Local Open Scope string_scope.
Local Open Scope list_scope.
Local Open Scope nat_scope.

Definition c_text (s : str) : cstr := CBytes (utf8_encode s).
Definition c_option (o : option str) : cstr := match o with Some s => c_text s | None => CNull end.
Definition c_cell (s : str) (t : Z) : CSlotValue := mkCSV (Some (CellText (utf8_encode s))) t.
Definition c_value (o : value) : CSlotValue :=
  match o with
  | VCustom s => c_cell s 1
  | VNumber d => mkCSV (Some (CellDouble d)) 2
  | VOrdinal z => mkCSV (Some (CellInt64 z)) 3
  | VInstant s g p => mkCSV (Some (CellInstant (c_text s) (grain_code g) (precision_code p))) 4
  | VInterval a b => mkCSV (Some (CellInterval (c_option a) (c_option b))) 5
  | VMoney a p u => mkCSV (Some (CellMoney (c_option u) a (precision_code p))) 6
  | VTemperature a u => mkCSV (Some (CellTemperature (c_option u) a)) 7
  | VDuration y q mo w d h mi s p => mkCSV (Some (CellDuration y q mo w d h mi s (precision_code p))) 8
  | VPercentage d => mkCSV (Some (CellDouble d)) 9
  | VAlbum s => c_cell s 10
  | VArtist s => c_cell s 11
  | VTrack s => c_cell s 12
  | VCity s => c_cell s 13
  | VCountry s => c_cell s 14
  | VRegion s => c_cell s 15
  end.
Definition value_ok (o : value) : Prop :=
  match o with
  | VCustom s | VAlbum s | VArtist s | VTrack s | VCity s | VCountry s | VRegion s | VInstant s _ _ => unicode s
  | VOrdinal z => int64 z
  | VInterval a b => (forall s, a = Some s -> unicode s) /\ (forall s, b = Some s -> unicode s)
  | VMoney _ _ u | VTemperature _ u => forall s, u = Some s -> unicode s
  | _ => True
  end.
Lemma c_text_ok s : unicode s -> text (c_text s) s.
Proof. intros U. split; auto. Qed.
Lemma c_option_ok o : (forall s, o = Some s -> unicode s) -> text_or_null (c_option o) o.
Proof. destruct o as [s|]; intros U; [apply c_text_ok; auto|reflexivity]. Qed.
Lemma c_value_ok o : value_ok o -> stands_for (c_value o) o.
Proof.
  destruct o; simpl; intros H;
    try match type of H with _ /\ _ => destruct H end; constructor; first [assumption|apply c_text_ok; assumption|apply c_option_ok; assumption|split; assumption].
Qed.

Section Layout.
  Context (reading : str -> value).
  Definition c_array {A B} (f : A -> B) (l : list A) : carray B := mkArr (Some (map f l)) (Z.of_nat (length l)).
  Definition c_slot (s : Slot) : CSlot :=
    mkCSlot (Some (c_value (value_of reading (sl_value s)))) (Some (c_array (fun v => c_value (value_of reading v)) (sl_alternatives s)))
      (c_text (sl_raw_value s)) (c_text (sl_entity s)) (c_text (sl_slot_name s))
      (Z.of_nat (rstart (sl_range s))) (Z.of_nat (rend (sl_range s)))
      (match sl_confidence s with Some f => f | None => f32_of_Z (-1) end).
  Definition c_intent (i : IntentResult) : CIntent := mkCIntent (c_option (ir_name i)) (ir_score i).
  Definition c_alternative (a : Alternative) : CAlternative :=
    mkCAlt (Some (c_intent (al_intent a))) (Some (c_array c_slot (al_slots a))).
  Definition c_layout (o : output) : cstruct :=
    match o with
    | OutParse r => CParse (mkCResult (c_text (ps_input r)) (Some (c_intent (ps_intent r))) (Some (c_array c_slot (ps_slots r)))
                                      (Some (c_array c_alternative (ps_alternatives r))))
    | OutSlots l => CSlots (c_array c_slot l)
    | OutIntents l => CIntents (c_array c_intent l)
    | _ => CSlots (mkArr None 0)
    end.

  Definition slot_ok (s : Slot) : Prop :=
    (forall v, In v (sl_value s :: sl_alternatives s) -> value_ok (value_of reading v)) /\
    unicode (sl_raw_value s) /\ unicode (sl_entity s) /\ unicode (sl_slot_name s).
  Definition intent_ok (i : IntentResult) : Prop := forall s, ir_name i = Some s -> unicode s.
  Definition output_ok (o : output) : Prop :=
    match o with
    | OutParse r => unicode (ps_input r) /\ intent_ok (ps_intent r) /\ (forall s, In s (ps_slots r) -> slot_ok s) /\
                    (forall a, In a (ps_alternatives r) -> intent_ok (al_intent a) /\ forall s, In s (al_slots a) -> slot_ok s)
    | OutSlots l => forall s, In s l -> slot_ok s
    | OutIntents l => forall i, In i l -> intent_ok i
    | _ => False
    end.
  Lemma c_array_ok {A B} (f : A -> B) (R : B -> A -> Prop) l : (forall a, In a l -> R (f a) a) -> array_of R (c_array f l) l.
  Proof.
    intros H. exists (map f l). split; [reflexivity|]. split; [reflexivity|].
    clear - H. induction l as [|a l IH]; simpl; constructor; [apply H; left; auto|]. apply IH. intros b I. apply H. right. auto.
  Qed.
  Lemma c_slot_ok s : slot_ok s -> slot_stands_for reading (c_slot s) s.
  Proof.
    intros (V & R & E & N). unfold c_slot.
    split; [eexists; split; [reflexivity|]; apply c_value_ok; apply V; left; auto|].
    split; [eexists; split; [reflexivity|]; apply (c_array_ok _ (fun v o => stands_for v (value_of reading o)));
            intros v I; apply c_value_ok; apply V; right; auto|].
    cbn [cs_raw cs_entity cs_name cs_start cs_end cs_score]. repeat split; auto.
  Qed.
  Lemma c_intent_ok i : intent_ok i -> intent_stands_for (c_intent i) i.
  Proof. intros H. split; [apply c_option_ok; exact H|reflexivity]. Qed.
  Lemma c_layout_ok o : output_ok o -> output_stands_for reading (c_layout o) o.
  Proof.
    destruct o; try contradiction; cbn [c_layout output_stands_for].
    - intros (U & I & S & A). split; [apply c_text_ok; exact U|]. split; [eexists; split; [reflexivity|]; apply c_intent_ok; exact I|].
      split; [eexists; split; [reflexivity|]; apply c_array_ok; intros s J; apply c_slot_ok; auto|].
      eexists. split; [reflexivity|]. apply c_array_ok. intros a J. destruct (A a J) as [Ia Sa].
      split; [eexists; split; [reflexivity|]; apply c_intent_ok; exact Ia|].
      eexists. split; [reflexivity|]. apply c_array_ok. intros s K. apply c_slot_ok; auto.
    - intros H. apply c_array_ok. intros s I. apply c_slot_ok; auto.
    - intros H. apply c_array_ok. intros s I. apply c_intent_ok; auto.
  Qed.
End Layout.

(** A trip: builtin values are read from their first letter. *)
Definition demo_reading (s : str) : value :=
  match s with
  | 105%N :: _ => VInterval (Some $"2019-06-01") (Some $"2019-06-08")
  | 111%N :: _ => VOrdinal 4294967298
  | 99%N :: r => VCity r
  | 116%N :: _ => VTemperature (f32_of_Z 21) (Some $"celsius")
  | _ => VNumber (f64_of_Z 2)
  end.
Definition no_repair (b : list byte) : str := b.
Definition trip_slot (raw : str) (v : slot_value) (alts : list slot_value) : Slot :=
  mkSlot raw v alts (3, 7) $"place" $"where" None.
Definition warm : Slot := trip_slot $"21 degrees" (SVBuiltin $"t") [SVBuiltin $"n"].
Definition week : Slot := trip_slot $"in June" (SVBuiltin $"i") [].
Definition second : Slot := trip_slot $"last" (SVBuiltin $"o") [].
Definition paris : Slot := trip_slot $"Paris" (SVCustom $"paris") [SVBuiltin $"cParis"].
Definition swift_slots (l : list Slot) : ending sw_output := sw_output_of no_repair (c_layout demo_reading (OutSlots l)).

Ltac decide_unicode := apply scalar_unicode; vm_compute; reflexivity.
Lemma trip_ok : output_ok demo_reading (OutSlots [warm; week; second; paris]).
Proof.
  intros s [<-|[<-|[<-|[<-|[]]]]];
    (split; [|repeat split; decide_unicode]); intros v V; cbn in V; repeat (destruct V as [<-|V]; [|]); try contradiction; cbn [value_of demo_reading value_ok].
  - intros s E. injection E as <-. decide_unicode.
  - exact I.
  - split; intros s E; injection E as <-; decide_unicode.
  - split; [discriminate|reflexivity].
  - decide_unicode.
  - decide_unicode.
Qed.
Lemma trip_sublist l : (forall s, In s l -> In s [warm; week; second; paris]) -> output_stands_for demo_reading (c_layout demo_reading (OutSlots l)) (OutSlots l).
Proof. intros H. apply c_layout_ok. intros s I. apply trip_ok. auto. Qed.

(** A whole call. *)
Definition kitchen_result : ParseResult :=
  get_ok (mkPR [] (mkIR None f0) [] []) (parse_with_alternatives demo_ext id_order id_order client1 $"light on in the kitchen" None None 0 0).
Lemma kitchen_eq : parse_with_alternatives demo_ext id_order id_order client1 $"light on in the kitchen" None None 0 0 = Ok kitchen_result.
Proof. apply get_ok_eq. vm_compute. reflexivity. Qed.
Definition to_c_id (o : output) : outcome output := Ok o.
Definition scalars (o : option str) : bool := match o with Some s => forallb is_scalar s | None => true end.
Definition custom_scalars (v : slot_value) : bool := match v with SVCustom s => forallb is_scalar s | _ => false end.
Definition slot_scalars (s : Slot) : bool :=
  forallb custom_scalars (sl_value s :: sl_alternatives s) && forallb is_scalar (sl_raw_value s) && forallb is_scalar (sl_entity s) && forallb is_scalar (sl_slot_name s).
Lemma slot_scalars_ok s : slot_scalars s = true -> slot_ok demo_reading s.
Proof.
  unfold slot_scalars. rewrite !andb_true_iff. intros (((V & R) & E) & N).
  split; [|repeat split; apply scalar_unicode; assumption].
  intros v I. rewrite forallb_forall in V. specialize (V v I). destruct v as [t|t]; [apply scalar_unicode; exact V|discriminate].
Qed.
Lemma result_scalars_ok r :
  forallb is_scalar (ps_input r) && scalars (ir_name (ps_intent r)) && forallb slot_scalars (ps_slots r) = true -> ps_alternatives r = [] ->
  output_ok demo_reading (OutParse r).
Proof.
  rewrite !andb_true_iff. intros ((A & B) & C) D.
  split; [apply scalar_unicode; exact A|]. split; [intros s E; unfold scalars in B; rewrite E in B; apply scalar_unicode; exact B|].
  split; [intros s I; apply slot_scalars_ok; rewrite forallb_forall in C; auto|]. rewrite D. intros a [].
Qed.
Lemma kitchen_stands : output_stands_for demo_reading (c_layout demo_reading (OutParse kitchen_result)) (OutParse kitchen_result).
Proof. apply c_layout_ok. apply result_scalars_ok; vm_compute; reflexivity. Qed.
Definition swift_kitchen : ending sw_output :=
  snd (sw_parse demo_ext shown to_c_id say (sw_view no_repair (c_layout demo_reading)) demo_es (Some 1) $"light on in the kitchen" None None 0 0 one_client).
Definition summary (r : ending sw_output) : option (option str * list (str * sw_value)) :=
  match r with
  | Value (SwParsed v) => Some (si_name (sr_intent v), map (fun s => (ss_raw s, ss_value s)) (sr_slots v))
  | _ => None
  end.
(** The values of slots; a number is not looked at. *)
Definition exact_value (v : sw_value) : option sw_value :=
  match v with SwInterval _ _ | SwOrdinal _ | SwCustom _ => Some v | _ => None end.
Definition values_of (r : ending sw_output) : option (list (option sw_value * list (option sw_value))) :=
  match r with Value (SwSlots l) => Some (map (fun s => (exact_value (ss_value s), map exact_value (ss_alternatives s))) l) | _ => None end.
