(** Results of the Swift wrapper. The statements use the specification of S_Structs: which C structure stands for
    which value, and what a Swift value has to say. *)
From Coq Require Import String List NArith ZArith Bool Arith.
From Verif Require Import Base F32 M_Types M_Engine M_Filler S_Filler M_Load M_Ffi S_Ffi P_Ffi M_Memory S_Memory M_Wrap M_Kotlin M_Swift S_Wrap
  M_Structs S_Structs P_Structs Demo Demo_Ffi Demo_Wrap Demo_Structs.
Import ListNotations.
Local Open Scope string_scope.
Local Open Scope list_scope.
Local Open Scope nat_scope.

(** C78: every value of a slot is shown as it is, apart from four kinds. *)
Theorem C78_value : forall rep c o, stands_for c o -> ~ place o -> ~ damaged o -> exists v, sw_slot_value rep c = Value v /\ says v o.
Proof. exact value_shown. Qed.
Print Assumptions C78_value.

(** A city, a country or a region is refused. *)
Theorem C78_place_refused : forall rep c o, stands_for c o -> place o -> sw_slot_value rep c = Raised None.
Proof. exact value_place. Qed.
Print Assumptions C78_place_refused.

(** The end of an interval is shown as its beginning. *)
Theorem C78_interval : forall rep c from to, stands_for c (VInterval from to) -> sw_slot_value rep c = Value (SwInterval from from).
Proof. exact interval_shown. Qed.
Print Assumptions C78_interval.

Theorem C78_interval_refuted : forall rep,
  ~ (forall c from to v, stands_for c (VInterval from to) -> sw_slot_value rep c = Value v -> says v (VInterval from to)).
Proof. exact interval_refuted. Qed.
Print Assumptions C78_interval_refuted.

(** An ordinal is shown by its lower 32 bits. *)
Theorem C78_ordinal : forall rep c z, stands_for c (VOrdinal z) ->
  exists n, sw_slot_value rep c = Value (SwOrdinal n) /\ (- 2 ^ 31 <= n < 2 ^ 31)%Z /\ exists k, (n = z + k * 2 ^ 32)%Z.
Proof. exact ordinal_shown. Qed.
Print Assumptions C78_ordinal.

Theorem C78_ordinal_refuted : forall rep,
  ~ (forall c z v, stands_for c (VOrdinal z) -> sw_slot_value rep c = Value v -> says v (VOrdinal z)).
Proof. exact ordinal_refuted. Qed.
Print Assumptions C78_ordinal_refuted.

(** Whole results, of the three calls. *)
Theorem C78_result : forall rep reading c o,
  output_stands_for reading c o -> ~ carries reading o place -> ~ carries reading o damaged -> scores_ok o ->
  exists v, sw_output_of rep c = Value v /\ output_says reading v o.
Proof. exact output_shown. Qed.
Print Assumptions C78_result.

(** One such value anywhere, be it as an alternative, and the whole result is refused. *)
Theorem C78_result_with_place : forall rep reading c o,
  output_stands_for reading c o -> carries reading o place -> sw_output_of rep c = Raised None.
Proof. exact output_place. Qed.
Print Assumptions C78_result_with_place.

(** No result stops the process or makes it read memory that is not there. *)
Theorem C78_valid_memory : forall rep reading c o,
  output_stands_for reading c o -> sw_output_of rep c <> Crashed /\ sw_output_of rep c <> Broken.
Proof. exact output_valid. Qed.
Print Assumptions C78_valid_memory.

(** A null pointer where the structure of an answer has none would stop the process. *)
Theorem C78_null : forall rep,
  (forall c, cv_value c = None -> (1 <= cv_type c <= 12)%Z -> sw_slot_value rep c = Crashed) /\
  (forall r, cr_input r = CNull \/ cr_intent r = None \/ cr_slots r = None -> sw_result rep r = Crashed).
Proof. exact null_pointers. Qed.
Print Assumptions C78_null.

(** From the text given to the Swift method to the value it returns. *)
Theorem C78_parse : forall x js cs msg rep reading layout es m a en q q' wl wl' bl bl' ia sa v m1 r,
  (forall o s, js o = Ok s -> ~ In 0%N s) -> (forall e, ~ In 0%N (msg e)) -> allocator es ->
  client_at (mem_world m) a en false -> unicode q -> unicode_list wl -> unicode_list bl -> uint32 ia -> uint32 sa ->
  cut_at_zero q q' -> cut_list wl wl' -> cut_list bl bl' ->
  parse_with_alternatives x (env_ord1 (es 0 m)) (env_ord2 (es 0 m)) en q' wl' bl' (Z.to_nat ia) (Z.to_nat sa) = Ok v ->
  cs (OutParse v) = Ok (OutParse v) -> output_stands_for reading (layout (OutParse v)) (OutParse v) ->
  sw_parse x js cs msg (sw_view rep layout) es (Some a) q wl bl ia sa m = (m1, r) -> shown_in_swift reading (OutParse v) m m1 r.
Proof. exact swift_parse_shown. Qed.
Print Assumptions C78_parse.

Theorem C78_slots : forall x js cs msg rep reading layout es m a en q q' i i' sa v m1 r,
  (forall o s, js o = Ok s -> ~ In 0%N s) -> (forall e, ~ In 0%N (msg e)) -> allocator es ->
  client_at (mem_world m) a en false -> unicode q -> unicode i -> uint32 sa -> cut_at_zero q q' -> cut_at_zero i i' ->
  get_slots_with_alternatives x en q' i' (Z.to_nat sa) = Ok v ->
  cs (OutSlots v) = Ok (OutSlots v) -> output_stands_for reading (layout (OutSlots v)) (OutSlots v) ->
  sw_get_slots x js cs msg (sw_view rep layout) es (Some a) q i sa m = (m1, r) -> shown_in_swift reading (OutSlots v) m m1 r.
Proof. exact swift_slots_shown. Qed.
Print Assumptions C78_slots.

Theorem C78_intents : forall x js cs msg rep reading layout es m a en q q' v m1 r,
  (forall o s, js o = Ok s -> ~ In 0%N s) -> (forall e, ~ In 0%N (msg e)) -> allocator es ->
  client_at (mem_world m) a en false -> unicode q -> cut_at_zero q q' ->
  get_intents (env_ord1 (es 0 m)) en q' = Ok v ->
  cs (OutIntents v) = Ok (OutIntents v) -> output_stands_for reading (layout (OutIntents v)) (OutIntents v) ->
  sw_get_intents x js cs msg (sw_view rep layout) es (Some a) q m = (m1, r) ->
  exists l, r = Value (SwIntents l) /\ Forall2 intent_says l v /\ same_memory m m1.
Proof. exact swift_intents_shown. Qed.
Print Assumptions C78_intents.

Example C78_case :
  output_stands_for demo_reading (c_layout demo_reading (OutSlots [warm; week; second])) (OutSlots [warm; week; second]) /\
  output_stands_for demo_reading (c_layout demo_reading (OutSlots [warm; paris])) (OutSlots [warm; paris]) /\
  values_of (swift_slots [warm; week; second]) =
    Some [(None, [None]); (Some (SwInterval (Some $"2019-06-01") (Some $"2019-06-01")), []); (Some (SwOrdinal 2), [])] /\
  ~ carries demo_reading (OutSlots [warm]) place /\ ~ carries demo_reading (OutSlots [warm]) damaged /\
  carries demo_reading (OutSlots [warm; week]) damaged /\ carries demo_reading (OutSlots [warm; paris]) place /\
  swift_slots [warm; paris] = Raised None /\
  client_at (mem_world one_client) 1 client1 false /\
  parse_with_alternatives demo_ext id_order id_order client1 $"light on in the kitchen" None None 0 0 = Ok kitchen_result /\
  output_stands_for demo_reading (c_layout demo_reading (OutParse kitchen_result)) (OutParse kitchen_result) /\
  summary swift_kitchen = Some (Some $"lightOn", [($"kitchen", SwCustom $"the kitchen")]).
Proof.
  split; [apply trip_sublist; intros s [<-|[<-|[<-|[]]]]; repeat (first [left; reflexivity|right])|].
  split; [apply trip_sublist; intros s [<-|[<-|[]]]; repeat (first [left; reflexivity|right])|].
  split; [vm_compute; reflexivity|].
  split; [intros (s & v & [<-|[]] & [<-|[<-|[]]] & P); exact P|].
  split; [intros (s & v & [<-|[]] & [<-|[<-|[]]] & P); exact P|].
  split; [exists week, (SVBuiltin $"i"); split; [right; left; reflexivity|]; split; [left; reflexivity|discriminate]|].
  split; [exists paris, (SVBuiltin $"cParis"); split; [right; left; reflexivity|]; split; [right; left; reflexivity|exact I]|].
  split; [vm_compute; reflexivity|]. split; [exact one_client_at|]. split; [exact kitchen_eq|]. split; [exact kitchen_stands|].
  vm_compute. reflexivity.
Qed.
