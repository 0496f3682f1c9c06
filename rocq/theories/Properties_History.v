(** C72, C73, C74: whole programs of the Python, Kotlin and Swift wrappers. *)
From Coq Require Import String List NArith ZArith Bool Arith.
From Verif Require Import Base F32 M_Types M_Engine M_Filler M_Load M_Ffi S_Filler S_Ffi M_Memory S_Memory
  M_Wrap M_Python M_Kotlin M_Swift S_Wrap S_History P_History Demo Demo_Load Demo_Ffi Demo_Wrap Demo_History.
Import ListNotations.
Local Open Scope string_scope.
Local Open Scope list_scope.
Local Open Scope nat_scope.

(** A Python program gets, call after call, what it would get if its variables held engines of
    the Rust interface. *)
Theorem C72_history : forall x js cs msg path symbol, (forall o s, js o = Ok s -> ~ In 0%N s) -> (forall e, ~ In 0%N (msg e)) ->
  forall l st rs, (forall es o, In (es, o) l -> exists d, py_means x js path es o d) ->
  py_run x js cs msg path symbol (mkPy empty_memory []) l = (st, rs) ->
  history (fun _ eo d => py_means x js path (fst eo) (snd eo) d) (python_message msg symbol) 0 no_engines l rs.
Proof. exact py_history. Qed.
Print Assumptions C72_history.

Example C72_history_case :
  finds demo_es demo_out /\
  (forall es o, In (es, o) (py_demo ++ [(demo_es, PyGetIntents 0 $"light on")]) -> exists d, py_means demo_ext shown (fun s => s) es o d) /\
  snd (py_run demo_ext shown to_c say (fun s => s) true (mkPy empty_memory []) (py_demo ++ [(demo_es, PyGetIntents 0 $"light on")])) =
    [Value None; Value (Some $"lightOn"); Raised (Some $"unknown intent"); Raised (Some $"cannot read");
     Value (Some $"none lightOn setTemp "); Value None; Raised None; Value None; Value None; Raised None].
Proof. split; [exact demo_finds|]. split; [exact py_demo_means|]. vm_compute. reflexivity. Qed.

(** So does a Kotlin program that never uses an engine after closing it. *)
Theorem C73_history : forall x js cs msg path {V} (view : output -> option V), (forall o s, js o = Ok s -> ~ In 0%N s) -> (forall e, ~ In 0%N (msg e)) ->
  forall l st rs, (forall es o, In (es, o) l -> exists n d, kt_means x js cs path view n es o d) -> no_use_after_close l ->
  kt_run x js cs msg path view (mkKt empty_memory []) l = (st, rs) ->
  history (fun n eo d => kt_means x js cs path view n (fst eo) (snd eo) d) (fun e => Some (msg (Some e))) 0 no_engines l (map kt_ending rs).
Proof. intros x js cs msg path V view. exact (kt_history x js cs msg path view). Qed.
Print Assumptions C73_history.

Example C73_history_case :
  (forall es o, In (es, o) kt_demo -> exists n d, kt_means demo_ext shown to_c (fun s => s) demo_view n es o d) /\ no_use_after_close kt_demo /\
  map kt_ending (snd kt_demo_run) =
    [Value (Some (KtText $"0.20.0")); Value None; Value (Some (KtStructure $"lightOn")); Value (Some (KtText $"lightOn"));
     Raised (Some $"cannot read"); Raised None; Value None; Value None; Raised (Some $"unknown intent")].
Proof. split; [exact kt_demo_means|]. split; [exact kt_demo_careful|]. vm_compute. reflexivity. Qed.

(** And a Swift program. *)
Theorem C74_history : forall x js cs msg {V} (view : output -> option V), (forall o s, js o = Ok s -> ~ In 0%N s) -> (forall e, ~ In 0%N (msg e)) ->
  forall l st rs, (forall es o, In (es, o) l -> exists d, sw_means x cs view es o d) ->
  sw_run x js cs msg view (mkSw empty_memory []) l = (st, rs) ->
  history (fun _ eo d => sw_means x cs view (fst eo) (snd eo) d) (fun e => Some (msg (Some e))) 0 no_engines l rs.
Proof. intros x js cs msg V view. exact (sw_history x js cs msg view). Qed.
Print Assumptions C74_history.

Example C74_history_case :
  (forall es o, In (es, o) (sw_demo ++ map step_by [SwRelease 0; SwGetIntents 0 $"light on"]) -> exists d, sw_means demo_ext to_c demo_view es o d) /\
  snd (sw_run demo_ext shown to_c say demo_view (mkSw empty_memory []) (sw_demo ++ map step_by [SwRelease 0; SwGetIntents 0 $"light on"])) =
    [Value None; Value (Some $"lightOn"); Value None; Raised (Some $"cannot read"); Raised (Some $"error"); Raised None;
     Raised (Some $"unknown intent"); Value None; Raised None].
Proof. split; [exact sw_demo_means|]. vm_compute. reflexivity. Qed.
