(** Model of the C structures of platforms/c/libsnips_nlu.h and of the Swift initialisers that
    read them: platforms/swift/SnipsNlu/SnipsNlu/NluEngine.swift:22-355. *)
From Coq Require Import String List NArith ZArith Bool Arith.
From Verif Require Import Base F32 M_Types M_Filler M_Ffi M_Wrap.
Import ListNotations.
Local Open Scope nat_scope.

(** ** The structures.  A pointer is [None] (null) or what it points to; enums are integers. *)

(** What the [void *] of a value points to, libsnips_nlu.h:319-438. *)
Inductive cell :=
| CellText (b : list byte)                                     (* char * *)
| CellDouble (d : f64)                                         (* CNumberValue, CPercentageValue *)
| CellInt64 (z : Z)                                            (* COrdinalValue *)
| CellInstant (value : cstr) (grain precision : Z)             (* CInstantTimeValue *)
| CellInterval (from to : cstr)                                (* CTimeIntervalValue *)
| CellMoney (unit : cstr) (value : f32) (precision : Z)        (* CAmountOfMoneyValue *)
| CellTemperature (unit : cstr) (value : f32)                  (* CTemperatureValue *)
| CellDuration (years quarters months weeks days hours minutes seconds : Z) (precision : Z).
(** libsnips_nlu.h:176-187 *)
Record CSlotValue := mkCSV { cv_value : option cell; cv_type : Z }.
(** The arrays, libsnips_nlu.h:162-171, 192-201, 244-253, 272-281: pointer and size. *)
Record carray A := mkArr { ar_data : option (list A); ar_size : Z }.
Arguments mkArr {A} _ _.
Arguments ar_data {A} _.
Arguments ar_size {A} _.
(** libsnips_nlu.h:206-239 *)
Record CSlot := mkCSlot {
  cs_value : option CSlotValue; cs_alternatives : option (carray CSlotValue); cs_raw : cstr; cs_entity : cstr;
  cs_name : cstr; cs_start : Z; cs_end : Z; cs_score : f32 }.
(** libsnips_nlu.h:148-157 *)
Record CIntent := mkCIntent { ci_name : cstr; ci_score : f32 }.
(** libsnips_nlu.h:258-267 *)
Record CAlternative := mkCAlt { ca_intent : option CIntent; ca_slots : option (carray CSlot) }.
(** libsnips_nlu.h:286-303 *)
Record CResult := mkCResult {
  cr_input : cstr; cr_intent : option CIntent; cr_slots : option (carray CSlot);
  cr_alternatives : option (carray CAlternative) }.

(** ** The Swift types *)

(** NluEngine.swift:293-301 and 318-320 *)
Inductive grain := Year | Quarter | Month | Week | Day | Hour | Minute | Second.
(** NluEngine.swift:318-320 *)
Inductive precision := Approximate | Exact.
(** NluEngine.swift:88-100, 159-264 *)
Inductive sw_value :=
| SwCustom (s : str)
| SwNumber (d : f64)
| SwOrdinal (z : Z)
| SwInstant (value : str) (g : grain) (p : precision)
| SwInterval (from to : option str)
| SwMoney (value : f32) (p : precision) (unit : option str)
| SwTemperature (value : f32) (unit : option str)
| SwDuration (years quarters months weeks days hours minutes seconds : Z) (p : precision)
| SwPercentage (d : f64)
| SwAlbum (s : str)
| SwArtist (s : str)
| SwTrack (s : str).
(** NluEngine.swift:331-338 *)
Record SwSlot := mkSwSlot {
  ss_raw : str; ss_value : sw_value; ss_alternatives : list sw_value; ss_range : Z * Z; ss_entity : str;
  ss_name : str; ss_score : option f32 }.
(** NluEngine.swift:49-51, 70-72 and 22-26 *)
Record SwIntent := mkSwIntent { si_name : option str; si_score : f32 }.
(** NluEngine.swift:70-72 *)
Record SwAlternative := mkSwAlt { sa_intent : SwIntent; sa_slots : list SwSlot }.
(** NluEngine.swift:22-26 *)
Record SwResult := mkSwResult {
  sr_input : str; sr_intent : SwIntent; sr_slots : list SwSlot; sr_alternatives : list SwAlternative }.

(** ** The initialisers *)

(** [try] in the initialisers of NluEngine.swift:28-349. *)
Definition ebind {A B} (m : ending A) (k : A -> ending B) : ending B :=
  match m with
  | Value a => k a
  | Raised w => Raised w
  | Crashed => Crashed
  | Broken => Broken
  end.
Notation "'let&' x := m 'in' k" := (ebind m (fun x => k)) (at level 200, x pattern, m at level 100, k at level 200).
(** [map] in NluEngine.swift:33, 36, 77, 344, 472 and 489. *)
Fixpoint emap {A B} (f : A -> ending B) (l : list A) : ending (list B) :=
  match l with
  | [] => Value []
  | a :: r => let& b := f a in let& t := emap f r in Value (b :: t)
  end.

Section View.
  (** [String(cString:)] of bytes that are not UTF-8 (external). *)
  Context (repaired : list byte -> str).

  (** [String(cString:)]; [p!] or [p.pointee] of a null pointer traps. *)
  Definition sw_bytes (b : list byte) : str := match utf8_decode b with Some s => s | None => repaired b end.
  (** [String(cString:)] in NluEngine.swift:28-349. *)
  Definition sw_text (c : cstr) : ending str :=
    match c with CNull => Crashed | CBytes b => Value (sw_bytes b) end.
  (** [if let p = ... { String(cString: p) } else { nil }].  NluEngine.swift:53-60 and
      189-245. *)
  Definition sw_text_or_nil (c : cstr) : option str :=
    match c with CNull => None | CBytes b => Some (sw_bytes b) end.
  (** [.pointee] in NluEngine.swift:28-490. *)
  Definition pointee {A} (p : option A) : ending A := match p with None => Crashed | Some a => Value a end.

  (** NluEngine.swift:303-315 *)
  Definition sw_grain (c : Z) : ending grain :=
    (if c =? 0 then Value Year
     else if c =? 1 then Value Quarter
     else if c =? 2 then Value Month
     else if c =? 3 then Value Week
     else if c =? 4 then Value Day
     else if c =? 5 then Value Hour
     else if c =? 6 then Value Minute
     else if c =? 7 then Value Second
     else Raised None)%Z.
  (** NluEngine.swift:322-328 *)
  Definition sw_precision (c : Z) : ending precision :=
    (if c =? 0 then Value Approximate else if c =? 1 then Value Exact else Raised None)%Z.

  (** [assumingMemoryBound]: memory of another type is undefined.  NluEngine.swift:105,
      141, 145 and 149. *)
  Definition cell_text (c : cell) : ending str := match c with CellText b => Value (sw_bytes b) | _ => Broken end.
  (** NluEngine.swift:109 and 137. *)
  Definition cell_double (c : cell) : ending f64 := match c with CellDouble d => Value d | _ => Broken end.
  (** A [CInt] where 64 bits are stored: the low half, on little-endian machines.
      NluEngine.swift:113 *)
  Definition low_half (z : Z) : Z := (let m := z mod 4294967296 in if m <? 2147483648 then m else m - 4294967296)%Z.
  (** NluEngine.swift:113 *)
  Definition cell_int (c : cell) : ending Z := match c with CellInt64 z => Value (low_half z) | _ => Broken end.

  (** NluEngine.swift:102-154, with 170-174, 189-201, 215-223, 238-245 and 266-276.  Swift's
      [Int] has 64 bits. *)
  Definition sw_slot_value (v : CSlotValue) : ending sw_value :=
    let t := cv_type v in
    (if t =? 1 then let& c := pointee (cv_value v) in let& s := cell_text c in Value (SwCustom s)
     else if t =? 2 then let& c := pointee (cv_value v) in let& d := cell_double c in Value (SwNumber d)
     else if t =? 3 then let& c := pointee (cv_value v) in let& z := cell_int c in Value (SwOrdinal z)
     else if t =? 4 then
       let& c := pointee (cv_value v) in
       match c with
       | CellInstant s g p => let& s := sw_text s in let& g := sw_grain g in let& p := sw_precision p in Value (SwInstant s g p)
       | _ => Broken
       end
     else if t =? 5 then
       let& c := pointee (cv_value v) in
       match c with
       | CellInterval from to => Value (SwInterval (sw_text_or_nil from) (sw_text_or_nil from))
       | _ => Broken
       end
     else if t =? 6 then
       let& c := pointee (cv_value v) in
       match c with
       | CellMoney unit value p => let& p := sw_precision p in Value (SwMoney value p (sw_text_or_nil unit))
       | _ => Broken
       end
     else if t =? 7 then
       let& c := pointee (cv_value v) in
       match c with
       | CellTemperature unit value => Value (SwTemperature value (sw_text_or_nil unit))
       | _ => Broken
       end
     else if t =? 8 then
       let& c := pointee (cv_value v) in
       match c with
       | CellDuration y q mo w d h mi s p => let& p := sw_precision p in Value (SwDuration y q mo w d h mi s p)
       | _ => Broken
       end
     else if t =? 9 then let& c := pointee (cv_value v) in let& d := cell_double c in Value (SwPercentage d)
     else if t =? 10 then let& c := pointee (cv_value v) in let& s := cell_text c in Value (SwAlbum s)
     else if t =? 11 then let& c := pointee (cv_value v) in let& s := cell_text c in Value (SwArtist s)
     else if t =? 12 then let& c := pointee (cv_value v) in let& s := cell_text c in Value (SwTrack s)
     else Raised None)%Z.

  (** [UnsafeBufferPointer(start:count:).map]: a negative count traps; elements beyond the
      array are undefined.  NluEngine.swift:33, 36, 77, 344, 472 and 489. *)
  Definition sw_array {A B} (f : A -> ending B) (a : option (carray A)) : ending (list B) :=
    let& a := pointee a in
    if (ar_size a <? 0)%Z then Crashed
    else
      let n := Z.to_nat (ar_size a) in
      match ar_data a with
      | None => if n =? 0 then Value [] else Broken
      | Some l => if n <=? List.length l then emap f (firstn n l) else Broken
      end.

  (** NluEngine.swift:340-349 *)
  Definition sw_slot (s : CSlot) : ending SwSlot :=
    let& raw := sw_text (cs_raw s) in
    let& v := pointee (cs_value s) in
    let& v := sw_slot_value v in
    let& alts := sw_array sw_slot_value (cs_alternatives s) in
    let& entity := sw_text (cs_entity s) in
    let& name := sw_text (cs_name s) in
    Value (mkSwSlot raw v alts (cs_start s, cs_end s) entity name (if fle f0 (cs_score s) then Some (cs_score s) else None)).

  (** NluEngine.swift:53-60 *)
  Definition sw_intent (i : CIntent) : SwIntent := mkSwIntent (sw_text_or_nil (ci_name i)) (ci_score i).

  (** NluEngine.swift:74-78 *)
  Definition sw_alternative (a : CAlternative) : ending SwAlternative :=
    let& i := pointee (ca_intent a) in
    let& l := sw_array sw_slot (ca_slots a) in
    Value (mkSwAlt (sw_intent i) l).

  (** NluEngine.swift:28-37 *)
  Definition sw_result (r : CResult) : ending SwResult :=
    let& input := sw_text (cr_input r) in
    let& i := pointee (cr_intent r) in
    let& l := sw_array sw_slot (cr_slots r) in
    let& a := sw_array sw_alternative (cr_alternatives r) in
    Value (mkSwResult input (sw_intent i) l a).

  (** NluEngine.swift:451, 472 and 489: the conversion of each kind of result. *)
  Inductive cstruct := CParse (r : CResult) | CSlots (l : carray CSlot) | CIntents (l : carray CIntent).
  (** What NluEngine.swift:424-490 returns. *)
  Inductive sw_output := SwParsed (r : SwResult) | SwSlots (l : list SwSlot) | SwIntents (l : list SwIntent).
  (** NluEngine.swift:451, 472 and 489 *)
  Definition sw_output_of (c : cstruct) : ending sw_output :=
    match c with
    | CParse r => let& v := sw_result r in Value (SwParsed v)
    | CSlots l => let& v := sw_array sw_slot (Some l) in Value (SwSlots v)
    | CIntents l => let& v := sw_array (fun i => Value (sw_intent i)) (Some l) in Value (SwIntents v)
    end.
  (** The conversion as M_Swift takes it, when it neither traps nor touches invalid memory.
      No counterpart in the code. *)
  Definition sw_view (layout : output -> cstruct) (o : output) : option sw_output :=
    match sw_output_of (layout o) with Value v => Some v | _ => None end.
End View.
