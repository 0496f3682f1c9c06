(** Specification vocabulary for the results of the Swift wrapper: C78. *)
From Coq Require Import String List NArith ZArith Bool.
From Verif Require Import Base F32 M_Types M_Engine M_Filler S_Filler M_Ffi S_Ffi M_Memory S_Memory M_Wrap M_Kotlin M_Swift S_Wrap M_Structs.
Import ListNotations.

(** The values of [snips_nlu_ontology::SlotValue] (external), as libsnips_nlu.h documents them. *)
Inductive value :=
| VCustom (s : str)
| VNumber (d : f64)
| VOrdinal (z : Z)
| VInstant (at_ : str) (g : grain) (p : precision)
| VInterval (from to : option str)
| VMoney (amount : f32) (p : precision) (unit : option str)
| VTemperature (degrees : f32) (unit : option str)
| VDuration (years quarters months weeks days hours minutes seconds : Z) (p : precision)
| VPercentage (d : f64)
| VAlbum (s : str)
| VArtist (s : str)
| VTrack (s : str)
| VCity (s : str)
| VCountry (s : str)
| VRegion (s : str).

(** ** What a C structure stands for, libsnips_nlu.h *)

Definition grain_code (g : grain) : Z :=
  match g with Year => 0 | Quarter => 1 | Month => 2 | Week => 3 | Day => 4 | Hour => 5 | Minute => 6 | Second => 7 end.
Definition precision_code (p : precision) : Z := match p with Approximate => 0 | Exact => 1 end.
(** A text, or null. *)
Definition text_or_null (c : cstr) (o : option str) : Prop :=
  match o with Some s => text c s | None => c = CNull end.
Definition int64 (z : Z) : Prop := (- 2 ^ 63 <= z < 2 ^ 63)%Z.

Inductive stands_for : CSlotValue -> value -> Prop :=
| sf_custom b s : text (CBytes b) s -> stands_for (mkCSV (Some (CellText b)) 1) (VCustom s)
| sf_number d : stands_for (mkCSV (Some (CellDouble d)) 2) (VNumber d)
| sf_ordinal z : int64 z -> stands_for (mkCSV (Some (CellInt64 z)) 3) (VOrdinal z)
| sf_instant c s g p : text c s -> stands_for (mkCSV (Some (CellInstant c (grain_code g) (precision_code p))) 4) (VInstant s g p)
| sf_interval c d from to : text_or_null c from -> text_or_null d to ->
    stands_for (mkCSV (Some (CellInterval c d)) 5) (VInterval from to)
| sf_money c a p unit : text_or_null c unit -> stands_for (mkCSV (Some (CellMoney c a (precision_code p))) 6) (VMoney a p unit)
| sf_temperature c a unit : text_or_null c unit -> stands_for (mkCSV (Some (CellTemperature c a)) 7) (VTemperature a unit)
| sf_duration y q mo w d h mi s p :
    stands_for (mkCSV (Some (CellDuration y q mo w d h mi s (precision_code p))) 8) (VDuration y q mo w d h mi s p)
| sf_percentage d : stands_for (mkCSV (Some (CellDouble d)) 9) (VPercentage d)
| sf_album b s : text (CBytes b) s -> stands_for (mkCSV (Some (CellText b)) 10) (VAlbum s)
| sf_artist b s : text (CBytes b) s -> stands_for (mkCSV (Some (CellText b)) 11) (VArtist s)
| sf_track b s : text (CBytes b) s -> stands_for (mkCSV (Some (CellText b)) 12) (VTrack s)
| sf_city b s : text (CBytes b) s -> stands_for (mkCSV (Some (CellText b)) 13) (VCity s)
| sf_country b s : text (CBytes b) s -> stands_for (mkCSV (Some (CellText b)) 14) (VCountry s)
| sf_region b s : text (CBytes b) s -> stands_for (mkCSV (Some (CellText b)) 15) (VRegion s).

(** An array with its size. *)
Definition array_of {A B} (R : A -> B -> Prop) (c : carray A) (l : list B) : Prop :=
  exists d, ar_data c = Some d /\ ar_size c = Z.of_nat (length l) /\ Forall2 R d l.

Section Meaning.
  (** The builtin values are opaque in the model of the engine: [reading] gives their shapes. *)
  Context (reading : str -> value).
  Definition value_of (v : slot_value) : value := match v with SVCustom s => VCustom s | SVBuiltin o => reading o end.

  (** The score of a slot, or -1. *)
  Definition slot_stands_for (c : CSlot) (s : Slot) : Prop :=
    (exists v, cs_value c = Some v /\ stands_for v (value_of (sl_value s))) /\
    (exists a, cs_alternatives c = Some a /\ array_of (fun v o => stands_for v (value_of o)) a (sl_alternatives s)) /\
    text (cs_raw c) (sl_raw_value s) /\ text (cs_entity c) (sl_entity s) /\ text (cs_name c) (sl_slot_name s) /\
    cs_start c = Z.of_nat (rstart (sl_range s)) /\ cs_end c = Z.of_nat (rend (sl_range s)) /\
    cs_score c = match sl_confidence s with Some f => f | None => f32_of_Z (-1) end.
  Definition intent_stands_for (c : CIntent) (i : IntentResult) : Prop :=
    text_or_null (ci_name c) (ir_name i) /\ ci_score c = ir_score i.
  Definition slots_stand_for (c : option (carray CSlot)) (l : list Slot) : Prop :=
    exists a, c = Some a /\ array_of slot_stands_for a l.
  Definition alternative_stands_for (c : CAlternative) (a : Alternative) : Prop :=
    (exists i, ca_intent c = Some i /\ intent_stands_for i (al_intent a)) /\ slots_stand_for (ca_slots c) (al_slots a).
  Definition result_stands_for (c : CResult) (r : ParseResult) : Prop :=
    text (cr_input c) (ps_input r) /\
    (exists i, cr_intent c = Some i /\ intent_stands_for i (ps_intent r)) /\
    slots_stand_for (cr_slots c) (ps_slots r) /\
    exists a, cr_alternatives c = Some a /\ array_of alternative_stands_for a (ps_alternatives r).
  Definition output_stands_for (c : cstruct) (o : output) : Prop :=
    match c, o with
    | CParse c, OutParse r => result_stands_for c r
    | CSlots c, OutSlots l => array_of slot_stands_for c l
    | CIntents c, OutIntents l => array_of intent_stands_for c l
    | _, _ => False
    end.

  (** ** What a Swift value says *)

  Definition says (v : sw_value) (o : value) : Prop :=
    match v, o with
    | SwCustom s, VCustom t | SwAlbum s, VAlbum t | SwArtist s, VArtist t | SwTrack s, VTrack t => s = t
    | SwNumber a, VNumber b | SwPercentage a, VPercentage b => a = b
    | SwOrdinal a, VOrdinal b => a = b
    | SwInstant s g p, VInstant s' g' p' => s = s' /\ g = g' /\ p = p'
    | SwInterval a b, VInterval a' b' => a = a' /\ b = b'
    | SwMoney a p u, VMoney a' p' u' => a = a' /\ p = p' /\ u = u'
    | SwTemperature a u, VTemperature a' u' => a = a' /\ u = u'
    | SwDuration y q mo w d h mi s p, VDuration y' q' mo' w' d' h' mi' s' p' =>
        [y; q; mo; w; d; h; mi; s] = [y'; q'; mo'; w'; d'; h'; mi'; s'] /\ p = p'
    | _, _ => False
    end.
  (** The shape for which Swift has no case. *)
  Definition place (o : value) : Prop := match o with VCity _ | VCountry _ | VRegion _ => True | _ => False end.
  (** The values that are damaged. *)
  Definition damaged (o : value) : Prop :=
    match o with
    | VInterval from to => from <> to
    | VOrdinal z => ~ (- 2 ^ 31 <= z < 2 ^ 31)%Z
    | _ => False
    end.

  Definition slot_says (v : SwSlot) (s : Slot) : Prop :=
    says (ss_value v) (value_of (sl_value s)) /\
    Forall2 (fun a b => says a (value_of b)) (ss_alternatives v) (sl_alternatives s) /\
    ss_raw v = sl_raw_value s /\ ss_entity v = sl_entity s /\ ss_name v = sl_slot_name s /\
    ss_range v = (Z.of_nat (rstart (sl_range s)), Z.of_nat (rend (sl_range s))) /\ ss_score v = sl_confidence s.
  Definition intent_says (v : SwIntent) (i : IntentResult) : Prop := si_name v = ir_name i /\ si_score v = ir_score i.
  Definition output_says (v : sw_output) (o : output) : Prop :=
    match v, o with
    | SwParsed v, OutParse r =>
        sr_input v = ps_input r /\ intent_says (sr_intent v) (ps_intent r) /\ Forall2 slot_says (sr_slots v) (ps_slots r) /\
        Forall2 (fun a b => intent_says (sa_intent a) (al_intent b) /\ Forall2 slot_says (sa_slots a) (al_slots b))
                (sr_alternatives v) (ps_alternatives r)
    | SwSlots v, OutSlots l => Forall2 slot_says v l
    | SwIntents v, OutIntents l => Forall2 intent_says v l
    | _, _ => False
    end.

  (** The slots of a result, and the values that they carry. *)
  Definition slots_of (o : output) : list Slot :=
    match o with
    | OutParse r => ps_slots r ++ flat_map al_slots (ps_alternatives r)
    | OutSlots l => l
    | _ => []
    end.
  Definition carries (o : output) (P : value -> Prop) : Prop :=
    exists s v, In s (slots_of o) /\ In v (sl_value s :: sl_alternatives s) /\ P (value_of v).
  (** Confidence scores are not negative. *)
  Definition scores_ok (o : output) : Prop :=
    forall s f, In s (slots_of o) -> sl_confidence s = Some f -> fle f0 f = true.

  (** How a result reaches the Swift user: an exception if a city, a country or a region is
      anywhere in it; otherwise a value, which says the same if nothing in it is damaged. *)
  Definition shown_in_swift (o : output) (m m1 : Memory) (r : ending sw_output) : Prop :=
    same_memory m m1 /\
    (carries o place -> r = Raised None) /\
    (~ carries o place -> exists v, r = Value v /\ (~ carries o damaged -> scores_ok o -> output_says v o)).
End Meaning.
