(** C72, C73, C74: the Python, Kotlin and Swift wrappers. *)
From Coq Require Import String List NArith ZArith Bool Arith Permutation.
From Verif Require Import Base F32 M_Types M_Engine M_Filler M_Load M_Ffi S_Filler S_Ffi P_Ffi M_Memory S_Memory
  M_Wrap M_Python M_Kotlin M_Swift S_Wrap P_Wrap P_Python P_Kotlin P_Swift Demo Demo_Load Demo_Ffi Demo_Wrap.
Import ListNotations.
Local Open Scope string_scope.
Local Open Scope list_scope.
Local Open Scope nat_scope.

(** ** Python *)

(** [parse] gives the json of the result of the Rust interface, or raises its error, and leaves
    memory as it was; texts are cut at a zero character. *)
Theorem C72_parse : forall x js cs msg symbol, (forall o s, js o = Ok s -> ~ In 0%N s) -> (forall e, ~ In 0%N (msg e)) ->
  forall es, allocator es ->
  forall m a en q q' wl wl' bl bl' ia sa m1 r,
  client_at (mem_world m) a en false -> unicode q -> unicode_list wl -> unicode_list bl -> uint32 ia -> uint32 sa ->
  cut_at_zero q q' -> cut_list wl wl' -> cut_list bl bl' ->
  py_parse x js cs msg symbol es (Some a) q wl bl ia sa m = (m1, r) ->
  passed_on (python_message msg symbol)
    (let* v := parse_with_alternatives x (env_ord1 (es 0 m)) (env_ord2 (es 0 m)) en q' wl' bl' (Z.to_nat ia) (Z.to_nat sa) in
     js (OutParse v)) m m1 r.
Proof. exact py_parse_ends. Qed.
Print Assumptions C72_parse.

(** Numbers of alternatives are passed by their 32 lower bits (so that -1 asks for as many
    alternatives as there can be); longer numbers raise. *)
Theorem C72_numbers : forall x js cs msg symbol es p q i wl bl ia ia' sa sa' m,
  passable ia -> passable ia' -> passable sa -> passable sa' -> same_low_bits ia ia' -> same_low_bits sa sa' ->
  py_parse x js cs msg symbol es p q wl bl ia sa m = py_parse x js cs msg symbol es p q wl bl ia' sa' m /\
  py_get_slots x js cs msg symbol es p q i sa m = py_get_slots x js cs msg symbol es p q i sa' m.
Proof. exact py_numbers. Qed.
Print Assumptions C72_numbers.

Theorem C72_long_numbers : forall x js cs msg symbol es p q i wl bl ia sa m,
  (~ passable ia \/ ~ passable sa ->
   exists m1, py_parse x js cs msg symbol es p q wl bl ia sa m = (m1, Raised None) /\ same_memory m m1) /\
  (~ passable sa ->
   exists m1, py_get_slots x js cs msg symbol es p q i sa m = (m1, Raised None) /\ same_memory m m1).
Proof. exact py_long_numbers. Qed.
Print Assumptions C72_long_numbers.

Example C72_numbers_case : passable (-1) /\ passable 4294967295 /\ same_low_bits (-1) 4294967295 /\ ~ passable 18446744073709551616.
Proof. exact numbers_case. Qed.

(** So do [get_slots] and [get_intents]. *)
Theorem C72_slots : forall x js cs msg symbol, (forall o s, js o = Ok s -> ~ In 0%N s) -> (forall e, ~ In 0%N (msg e)) ->
  forall es, allocator es ->
  forall m a en q q' i i' sa m1 r,
  client_at (mem_world m) a en false -> unicode q -> unicode i -> uint32 sa -> cut_at_zero q q' -> cut_at_zero i i' ->
  py_get_slots x js cs msg symbol es (Some a) q i sa m = (m1, r) ->
  passed_on (python_message msg symbol) (let* v := get_slots_with_alternatives x en q' i' (Z.to_nat sa) in js (OutSlots v)) m m1 r.
Proof. exact py_slots_ends. Qed.
Print Assumptions C72_slots.

Theorem C72_intents : forall x js cs msg symbol, (forall o s, js o = Ok s -> ~ In 0%N s) -> (forall e, ~ In 0%N (msg e)) ->
  forall es, allocator es ->
  forall m a en q q' m1 r,
  client_at (mem_world m) a en false -> unicode q -> cut_at_zero q q' ->
  py_get_intents x js cs msg symbol es (Some a) q m = (m1, r) ->
  passed_on (python_message msg symbol) (let* v := get_intents (env_ord1 (es 0 m)) en q' in js (OutIntents v)) m m1 r.
Proof. exact py_intents_ends. Qed.
Print Assumptions C72_intents.

(** A new engine is the one of the directory or of the archive. *)
Theorem C72_created_dir : forall x js cs msg path symbol, (forall e, ~ In 0%N (msg e)) -> forall es, allocator es ->
  forall d d' b m m1 r, unicode (path d) -> cut_at_zero (path d) d' ->
  py_init x js cs msg path symbol es (Some d) b m = (m1, r) ->
  engine_made (python_message msg symbol) (env_dir (es 0 m) d') m m1 r.
Proof. exact py_init_dir_ends. Qed.
Print Assumptions C72_created_dir.

Theorem C72_created_bytes : forall x js cs msg path symbol, (forall e, ~ In 0%N (msg e)) -> forall es, allocator es ->
  forall b m m1 r, py_init x js cs msg path symbol es None (Some b) m = (m1, r) ->
  engine_made (python_message msg symbol) (env_zip (es 0 m) b) m m1 r.
Proof. exact py_init_bytes_ends. Qed.
Print Assumptions C72_created_bytes.

(** Whatever a program does, it never misuses the C interface; and unless it crashes, the only
    memory of the library in use is one client for each variable that holds an engine. *)
Theorem C72_program : forall x js cs msg path symbol, (forall e, ~ In 0%N (msg e)) ->
  forall l st rs, (forall es o, In (es, o) l -> allocator es) ->
  py_run x js cs msg path symbol (mkPy empty_memory []) l = (st, rs) ->
  ~ In Broken rs /\
  (~ In Crashed rs -> mem_objects (py_memory st) = [] /\ Permutation (map Some (clients (py_memory st))) (map snd (py_variables st))).
Proof. exact py_program. Qed.
Print Assumptions C72_program.

(** A query with a zero character is not answered as by the Rust interface. *)
Theorem C72_whole_query_refuted : ~ (forall x (js : output -> outcome str) cs (msg : option error -> str) symbol, (forall o s, js o = Ok s -> ~ In 0%N s) -> (forall e, ~ In 0%N (msg e)) ->
  forall es, allocator es -> forall m a en q m1 r,
  client_at (mem_world m) a en false -> unicode q ->
  py_parse x js cs msg symbol es (Some a) q None None 0 0 m = (m1, r) ->
  passed_on (python_message msg symbol)
    (let* v := parse_with_alternatives x (env_ord1 (es 0 m)) (env_ord2 (es 0 m)) en q None None 0 0 in js (OutParse v)) m m1 r).
Proof. exact zero_refutes. Qed.
Print Assumptions C72_whole_query_refuted.

Example C72_case :
  (forall o s, shown o = Ok s -> ~ In 0%N s) /\ (forall e, ~ In 0%N (say e)) /\ allocator demo_es /\
  client_at (mem_world one_client) 1 client1 false /\ unicode zero_query /\ cut_at_zero zero_query $"light on in the kitchen" /\
  cut_list (Some [$"setTemp"]) (Some [$"setTemp"]) /\
  snd (py_parse demo_ext shown to_c say true demo_es (Some 1) zero_query None (Some [$"setTemp"]) 0 1 one_client) = Value $"lightOn" /\
  (forall es o, In (es, o) py_demo -> allocator es) /\
  snd (py_demo_run true) =
    [Value None; Value (Some $"lightOn"); Raised (Some $"unknown intent"); Raised (Some $"cannot read");
     Value (Some $"none lightOn setTemp "); Value None; Raised None; Value None; Value None] /\
  nth 2 (snd (py_demo_run false)) Crashed = Raised None /\
  clients (py_memory (fst (py_demo_run true))) = [3] /\ py_variables (fst (py_demo_run true)) = [(2, Some 3)].
Proof.
  split; [exact shown_no_zero|]. split; [exact say_no_zero|]. split; [exact demo_allocator|]. split; [exact one_client_at|].
  split; [exact zero_unicode|]. split; [exact (before_zero_cut zero_query)|].
  split; [constructor; constructor; [exact (before_zero_cut $"setTemp")|constructor]|].
  split; [vm_compute; reflexivity|]. split; [exact (steps_allocator _)|]. repeat (split; [vm_compute; reflexivity|]). vm_compute. reflexivity.
Qed.

(** ** Kotlin *)

(** The functions give the conversion of the result of the Rust interface, or its json, or throw
    its error; memory is left as it was, unless the conversion throws. *)
Theorem C73_parse : forall x js cs msg {V} (view : output -> option V), (forall o s, js o = Ok s -> ~ In 0%N s) -> (forall e, ~ In 0%N (msg e)) ->
  forall es, allocator es ->
  forall m a en q q' wl wl' bl bl' ia ia' sa sa' m1,
  client_at (mem_world m) a en false -> unicode q -> unicode_list wl -> unicode_list bl -> wl <> Some [] -> bl <> Some [] ->
  int_count ia ia' -> int_count sa sa' -> cut_at_zero q q' -> cut_list wl wl' -> cut_list bl bl' ->
  let result := parse_with_alternatives x (env_ord1 (es 0 m)) (env_ord2 (es 0 m)) en q' wl' bl' ia' sa' in
  (forall r, kt_parse x js cs msg view es (Some a) q wl bl ia sa m = (m1, r) ->
     converted view KResult (fun e => Some (msg (Some e))) (let* v := result in cs (OutParse v)) m m1 r) /\
  (forall r, kt_parse_json x js cs msg es (Some a) q wl bl ia sa m = (m1, r) ->
     passed_on (fun e => Some (msg (Some e))) (let* v := result in js (OutParse v)) m m1 r).
Proof. intros x js cs msg V view. exact (kt_parse_ends x js cs msg view). Qed.
Print Assumptions C73_parse.

Theorem C73_slots : forall x js cs msg {V} (view : output -> option V), (forall o s, js o = Ok s -> ~ In 0%N s) -> (forall e, ~ In 0%N (msg e)) ->
  forall es, allocator es ->
  forall m a en q q' i i' sa sa' m1,
  client_at (mem_world m) a en false -> unicode q -> unicode i -> int_count sa sa' -> cut_at_zero q q' -> cut_at_zero i i' ->
  let result := get_slots_with_alternatives x en q' i' sa' in
  (forall r, kt_get_slots x js cs msg view es (Some a) q i sa m = (m1, r) ->
     converted view KSlots (fun e => Some (msg (Some e))) (let* v := result in cs (OutSlots v)) m m1 r) /\
  (forall r, kt_get_slots_json x js cs msg es (Some a) q i sa m = (m1, r) ->
     passed_on (fun e => Some (msg (Some e))) (let* v := result in js (OutSlots v)) m m1 r).
Proof. intros x js cs msg V view. exact (kt_slots_ends x js cs msg view). Qed.
Print Assumptions C73_slots.

Theorem C73_intents : forall x js cs msg {V} (view : output -> option V), (forall o s, js o = Ok s -> ~ In 0%N s) -> (forall e, ~ In 0%N (msg e)) ->
  forall es, allocator es ->
  forall m a en q q' m1,
  client_at (mem_world m) a en false -> unicode q -> cut_at_zero q q' ->
  let result := get_intents (env_ord1 (es 0 m)) en q' in
  (forall r, kt_get_intents x js cs msg view es (Some a) q m = (m1, r) ->
     converted view KIntents (fun e => Some (msg (Some e))) (let* v := result in cs (OutIntents v)) m m1 r) /\
  (forall r, kt_get_intents_json x js cs msg es (Some a) q m = (m1, r) ->
     passed_on (fun e => Some (msg (Some e))) (let* v := result in js (OutIntents v)) m m1 r).
Proof. intros x js cs msg V view. exact (kt_intents_ends x js cs msg view). Qed.
Print Assumptions C73_intents.

Theorem C73_version : forall x js cs msg, (forall e, ~ In 0%N (msg e)) -> forall es, allocator es ->
  forall m m1 r, kt_model_version x js cs msg es m = (m1, r) -> r = Value $"0.20.0" /\ same_memory m m1.
Proof. exact kt_version_ends. Qed.
Print Assumptions C73_version.

Theorem C73_created : forall x js cs msg path, (forall e, ~ In 0%N (msg e)) -> forall es, allocator es -> forall m m1 r,
  (forall f f', unicode (path f) -> cut_at_zero (path f) f' -> kt_new_file x js cs msg path es f m = (m1, r) ->
     engine_made (fun e => Some (msg (Some e))) (env_dir (es 0 m) f') m m1 r) /\
  (forall d, kt_new_zip x js cs msg es d m = (m1, r) -> engine_made (fun e => Some (msg (Some e))) (env_zip (es 0 m) d) m m1 r).
Proof. exact kt_created. Qed.
Print Assumptions C73_created.

(** A program that never uses an engine after closing it, and never passes an empty list of
    intents, does not misuse the C interface; and unless it crashes, the only memory of the
    library in use is the engines that are not closed, and the results that were not converted. *)
Theorem C73_program : forall x js cs msg path {V} (view : output -> option V), (forall e, ~ In 0%N (msg e)) ->
  forall l st rs, (forall es o, In (es, o) l -> allocator es /\ ~ empty_filter o) -> no_use_after_close l ->
  kt_run x js cs msg path view (mkKt empty_memory []) l = (st, rs) ->
  ~ In Broken rs /\
  (~ In Crashed rs ->
   (forall a k o, In (a, (k, o)) (mem_objects (kt_memory st)) -> k <> KString /\ view o = None) /\
   Permutation (map Some (clients (kt_memory st)))
     (map snd (filter (fun nc => negb (memb Nat.eqb (fst nc) (closed l rs))) (kt_engines st)))).
Proof. intros x js cs msg path V view. exact (kt_program x js cs msg path view). Qed.
Print Assumptions C73_program.

(** An empty list of intents is undefined behaviour, for every engine and every query. *)
Theorem C73_empty_filter : forall x js cs msg {V} (view : output -> option V) m a en q wl bl ia sa es,
  client_at (mem_world m) a en false -> unicode q -> unicode_list wl -> wl = Some [] \/ bl = Some [] ->
  snd (kt_parse x js cs msg view es (Some a) q wl bl ia sa m) = Broken /\
  snd (kt_parse_json x js cs msg es (Some a) q wl bl ia sa m) = Broken.
Proof. intros x js cs msg V view. exact (kt_empty_filter x js cs msg view). Qed.
Print Assumptions C73_empty_filter.

(** So is closing an engine twice, or using it after that. *)
Theorem C73_after_close : forall x js cs msg {V} (view : output -> option V) m m1 a es es', kt_close x js cs msg es (Some a) m = (m1, Value tt) ->
  snd (kt_close x js cs msg es' (Some a) m1) = Broken /\
  (forall q wl bl ia sa, unicode q ->
     snd (kt_parse x js cs msg view es' (Some a) q wl bl ia sa m1) = Broken /\
     snd (kt_parse_json x js cs msg es' (Some a) q wl bl ia sa m1) = Broken) /\
  (forall q i sa, unicode q -> unicode i ->
     snd (kt_get_slots x js cs msg view es' (Some a) q i sa m1) = Broken /\
     snd (kt_get_slots_json x js cs msg es' (Some a) q i sa m1) = Broken) /\
  (forall q, unicode q ->
     snd (kt_get_intents x js cs msg view es' (Some a) q m1) = Broken /\
     snd (kt_get_intents_json x js cs msg es' (Some a) q m1) = Broken).
Proof. intros x js cs msg V view. exact (kt_after_close x js cs msg view). Qed.
Print Assumptions C73_after_close.

Example C73_case :
  client_at (mem_world one_client) 1 client1 false /\ int_count 1 1 /\ int_count (-1) (Z.to_nat 4294967295) /\
  snd (kt_parse demo_ext shown to_c say demo_view demo_es (Some 1) zero_query None (Some [$"setTemp"]) 0 1 one_client) = Value $"lightOn" /\
  snd (kt_get_intents demo_ext shown to_c say demo_view demo_es (Some 1) $"light on" one_client) = Raised None /\
  mem_objects (fst (kt_get_intents demo_ext shown to_c say demo_view demo_es (Some 1) $"light on" one_client)) =
    [(2, (KIntents, OutText $"none lightOn setTemp "))] /\
  (forall es o, In (es, o) kt_demo -> allocator es /\ ~ empty_filter o) /\ no_use_after_close kt_demo /\
  snd kt_demo_run =
    [Value (KtText $"0.20.0"); Value KtNothing; Value (KtStructure $"lightOn"); Value (KtText $"lightOn"); Raised (Some $"cannot read");
     Raised None; Value KtNothing; Value KtNothing; Raised (Some $"unknown intent")] /\
  clients (kt_memory (fst kt_demo_run)) = [3] /\ kt_engines (fst kt_demo_run) = [(1, Some 3); (0, Some 1)] /\
  closed kt_demo (snd kt_demo_run) = [0].
Proof.
  split; [exact one_client_at|]. split; [left; split; [split; [discriminate|reflexivity]|reflexivity]|].
  split; [right; split; [split; [discriminate|reflexivity]|exact (Z2Nat.id 4294967295 ltac:(discriminate))]|].
  split; [vm_compute; reflexivity|]. split; [vm_compute; reflexivity|]. split; [vm_compute; reflexivity|].
  split; [intros es o; apply (steps_of (fun o => ~ empty_filter o)); repeat constructor; cbn; intuition discriminate|].
  split; [exact kt_demo_careful|]. repeat (split; [vm_compute; reflexivity|]). vm_compute. reflexivity.
Qed.

(** ** Swift *)

(** The functions give the conversion of the result of the Rust interface, or throw its error;
    the message of an error stays in memory. *)
Theorem C74_parse : forall x js cs msg {V} (view : output -> option V), (forall o s, js o = Ok s -> ~ In 0%N s) -> (forall e, ~ In 0%N (msg e)) ->
  forall es, allocator es ->
  forall m a en q q' wl wl' bl bl' ia sa m1 r,
  client_at (mem_world m) a en false -> unicode q -> unicode_list wl -> unicode_list bl -> uint32 ia -> uint32 sa ->
  cut_at_zero q q' -> cut_list wl wl' -> cut_list bl bl' ->
  sw_parse x js cs msg view es (Some a) q wl bl ia sa m = (m1, r) ->
  converted_swift view (fun e => msg (Some e))
    (let* v := parse_with_alternatives x (env_ord1 (es 0 m)) (env_ord2 (es 0 m)) en q' wl' bl' (Z.to_nat ia) (Z.to_nat sa) in
     cs (OutParse v)) m m1 r.
Proof. intros x js cs msg V view. exact (sw_parse_ends x js cs msg view). Qed.
Print Assumptions C74_parse.

Theorem C74_slots : forall x js cs msg {V} (view : output -> option V), (forall o s, js o = Ok s -> ~ In 0%N s) -> (forall e, ~ In 0%N (msg e)) ->
  forall es, allocator es ->
  forall m a en q q' i i' sa m1 r,
  client_at (mem_world m) a en false -> unicode q -> unicode i -> uint32 sa -> cut_at_zero q q' -> cut_at_zero i i' ->
  sw_get_slots x js cs msg view es (Some a) q i sa m = (m1, r) ->
  converted_swift view (fun e => msg (Some e)) (let* v := get_slots_with_alternatives x en q' i' (Z.to_nat sa) in cs (OutSlots v)) m m1 r.
Proof. intros x js cs msg V view. exact (sw_slots_ends x js cs msg view). Qed.
Print Assumptions C74_slots.

Theorem C74_intents : forall x js cs msg {V} (view : output -> option V), (forall o s, js o = Ok s -> ~ In 0%N s) -> (forall e, ~ In 0%N (msg e)) ->
  forall es, allocator es ->
  forall m a en q q' m1 r,
  client_at (mem_world m) a en false -> unicode q -> cut_at_zero q q' ->
  sw_get_intents x js cs msg view es (Some a) q m = (m1, r) ->
  converted_swift view (fun e => msg (Some e)) (let* v := get_intents (env_ord1 (es 0 m)) en q' in cs (OutIntents v)) m m1 r.
Proof. intros x js cs msg V view. exact (sw_intents_ends x js cs msg view). Qed.
Print Assumptions C74_intents.

Theorem C74_created : forall x js cs msg, (forall e, ~ In 0%N (msg e)) -> forall es, allocator es -> forall m m1 r,
  (forall p p', unicode p -> cut_at_zero p p' -> sw_new_url x js cs msg es p m = (m1, r) ->
     engine_made_swift (fun e => msg (Some e)) (env_dir (es 0 m) p') m m1 r) /\
  (forall d, d <> [] -> uint32 (Z.of_nat (List.length d)) -> sw_new_data x js cs msg es d m = (m1, r) ->
     engine_made_swift (fun e => msg (Some e)) (env_zip (es 0 m) d) m m1 r).
Proof. exact sw_created. Qed.
Print Assumptions C74_created.

(** A program that never loads empty data does not misuse the C interface; and unless it
    crashes, the only memory of the library in use is one client for each variable that holds
    an engine, and one message for each error that was thrown. *)
Theorem C74_program : forall x js cs msg {V} (view : output -> option V), (forall e, ~ In 0%N (msg e)) ->
  forall l st rs, (forall es o, In (es, o) l -> allocator es /\ sw_data_ok o) ->
  sw_run x js cs msg view (mkSw empty_memory []) l = (st, rs) ->
  ~ In Broken rs /\
  (~ In Crashed rs ->
   (forall a k o, In (a, (k, o)) (mem_objects (sw_memory st)) -> k = KString) /\
   List.length (mem_objects (sw_memory st)) = library_errors rs /\
   Permutation (map Some (clients (sw_memory st))) (map snd (sw_variables st))).
Proof. intros x js cs msg V view. exact (sw_program x js cs msg view). Qed.
Print Assumptions C74_program.

(** A negative or huge number of alternatives crashes the process, and empty data is undefined. *)
Theorem C74_number_crash : forall x js cs msg {V} (view : output -> option V) es p q wl bl i ia sa m, ~ uint32 ia \/ ~ uint32 sa ->
  sw_parse x js cs msg view es p q wl bl ia sa m = (m, Crashed) /\
  (~ uint32 sa -> sw_get_slots x js cs msg view es p q i sa m = (m, Crashed)).
Proof. intros x js cs msg V view. exact (sw_number_crash x js cs msg view). Qed.
Print Assumptions C74_number_crash.

Theorem C74_empty_data : forall x js cs msg es m, snd (sw_new_data x js cs msg es [] m) = Broken.
Proof. exact sw_data_empty. Qed.
Print Assumptions C74_empty_data.

Example C74_case :
  client_at (mem_world one_client) 1 client1 false /\ uint32 1 /\ ~ uint32 (-1) /\
  snd (sw_parse demo_ext shown to_c say demo_view demo_es (Some 1) zero_query None (Some [$"setTemp"]) 0 1 one_client) = Value $"lightOn" /\
  (forall es o, In (es, o) sw_demo -> allocator es /\ sw_data_ok o) /\
  snd sw_demo_run =
    [Value None; Value (Some $"lightOn"); Value None; Raised (Some $"cannot read"); Raised (Some $"error"); Raised None;
     Raised (Some $"unknown intent")] /\
  library_errors (snd sw_demo_run) = 3 /\ map fst (mem_objects (sw_memory (fst sw_demo_run))) = [5; 4; 3] /\
  clients (sw_memory (fst sw_demo_run)) = [2] /\ sw_variables (fst sw_demo_run) = [(0, Some 2)].
Proof.
  split; [exact one_client_at|]. split; [split; [discriminate|reflexivity]|]. split; [intros [H _]; apply H; reflexivity|].
  split; [vm_compute; reflexivity|].
  split; [intros es o; apply (steps_of sw_data_ok);
    repeat (apply Forall_cons; [first [exact I|apply scalar_unicode; reflexivity|discriminate]|]); apply Forall_nil|].
  repeat (split; [vm_compute; reflexivity|]). vm_compute. reflexivity.
Qed.
