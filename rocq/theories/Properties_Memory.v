(** C71: the memory of the C interface. *)
From Coq Require Import String List NArith ZArith Bool Arith Permutation.
From Verif Require Import Base F32 M_Types M_Engine M_Filler M_Load M_Ffi S_Filler S_Ffi P_Ffi M_Memory S_Memory P_Memory Demo Demo_Load Demo_Ffi Demo_Wrap.
Import ListNotations.
Local Open Scope string_scope.
Local Open Scope list_scope.
Local Open Scope nat_scope.

(** A result of the Rust interface is handed over in a new object, which holds the C structure
    or the json text; an error or a panic allocates nothing. *)
Theorem C71_results : forall x js cs msg, (forall o s, js o = Ok s -> ~ In 0%N s) ->
  forall m e a en input s m1 r, client_at (mem_world m) a en false -> text input s ->
  (forall wl w' bl b' ia sa, texts wl w' -> texts bl b' ->
     (mstep x js cs msg m e (Call (RunParseWithAlternatives (Some a) input wl bl ia sa false)) = (m1, r) ->
      handed e KResult (let* v := parse_with_alternatives x (env_ord1 e) (env_ord2 e) en s w' b' ia sa in cs (OutParse v)) m m1 r) /\
     (mstep x js cs msg m e (Call (RunParseWithAlternatives (Some a) input wl bl ia sa true)) = (m1, r) ->
      handed e KString (let* v := parse_with_alternatives x (env_ord1 e) (env_ord2 e) en s w' b' ia sa in
                      let* t := js (OutParse v) in Ok (OutText t)) m m1 r)) /\
  (forall intent i sa, text intent i ->
     (mstep x js cs msg m e (Call (RunGetSlotsWithAlternatives (Some a) input intent sa false)) = (m1, r) ->
      handed e KSlots (let* v := get_slots_with_alternatives x en s i sa in cs (OutSlots v)) m m1 r) /\
     (mstep x js cs msg m e (Call (RunGetSlotsWithAlternatives (Some a) input intent sa true)) = (m1, r) ->
      handed e KString (let* v := get_slots_with_alternatives x en s i sa in let* t := js (OutSlots v) in Ok (OutText t)) m m1 r)) /\
  (mstep x js cs msg m e (Call (RunGetIntents (Some a) input false)) = (m1, r) ->
   handed e KIntents (let* v := get_intents (env_ord1 e) en s in cs (OutIntents v)) m m1 r) /\
  (mstep x js cs msg m e (Call (RunGetIntents (Some a) input true)) = (m1, r) ->
   handed e KString (let* v := get_intents (env_ord1 e) en s in let* t := js (OutIntents v) in Ok (OutText t)) m m1 r).
Proof. exact results_handed. Qed.
Print Assumptions C71_results.

(** So are the version and the message of the last error. *)
Theorem C71_texts : forall x js cs msg m e m1 r,
  (mstep x js cs msg m e (Call GetModelVersion) = (m1, r) -> handed e KString (Ok (OutText $"0.20.0")) m m1 r) /\
  (~ In 0%N (msg (w_error (mem_world m))) -> mstep x js cs msg m e GetLastError = (m1, r) ->
   handed e KString (Ok (OutText (msg (w_error (mem_world m))))) m m1 r).
Proof. exact texts_handed. Qed.
Print Assumptions C71_texts.

(** Over any history, the pointers that the caller was given are those that it has given back,
    and those of the memory in use; no address is in use twice. *)
Theorem C71_balance : forall x js cs msg l m s,
  fresh_addresses x js cs msg empty_memory l -> mrun x js cs msg empty_memory l = (m, s) ->
  Permutation (given s) (taken_back l s ++ in_use m) /\ NoDup (in_use m).
Proof. exact memory_balance. Qed.
Print Assumptions C71_balance.

(** An object stays, with the same contents, until it is destroyed. *)
Theorem C71_stable : forall x js cs msg l m a k o, fresh_addresses x js cs msg m l ->
  (forall e r, In (e, r) l -> ~ destroys r a) -> object_at m a k o -> object_at (fst (mrun x js cs msg m l)) a k o.
Proof. exact object_kept. Qed.
Print Assumptions C71_stable.

(** Destroying an object frees it and nothing else; destroying what is not there, or with the
    function of another kind, is undefined. *)
Theorem C71_destroy : forall x js cs msg m e k a m1 r, mstep x js cs msg m e (Destroy k (Some a)) = (m1, r) ->
  (forall o, object_at m a k o ->
     r = AOk None /\ mem_world m1 = mem_world m /\ (forall k' o', ~ object_at m1 a k' o') /\
     forall b k' o', b <> a -> (object_at m1 b k' o' <-> object_at m b k' o')) /\
  ((forall o, ~ object_at m a k o) -> r = AUndefined).
Proof. exact destroying. Qed.
Print Assumptions C71_destroy.

(** Destroying a null pointer is refused. *)
Theorem C71_destroy_null : forall x js cs msg m e k,
  mstep x js cs msg m e (Destroy k None) = (mkMem (mkWorld (w_clients (mem_world m)) (Some EOther)) (mem_objects m), AKo).
Proof. exact destroy_null. Qed.
Print Assumptions C71_destroy_null.

(** Only mistakes of the caller are undefined. *)
Theorem C71_undefined : forall x js cs msg m e r, snd (mstep x js cs msg m e r) = AUndefined -> mistaken m r.
Proof. exact undefined_request. Qed.
Print Assumptions C71_undefined.

(** A history: a client, two results of a parse, intents, a refused call and its message, two
    objects destroyed, a null pointer, a string at an address that was freed. *)
Example C71_case :
  client_at (mem_world held_first) 1 client1 false /\
  (forall o s, shown o = Ok s -> ~ In 0%N s) /\
  fresh_addresses demo_ext shown to_c say empty_memory held /\
  held_answers = [AOk (Some 1); AOk (Some 2); AOk (Some 3); AOk (Some 4); AKo; AOk (Some 5); AOk None; AOk None; AKo; AOk (Some 2)] /\
  given held_answers = [1; 2; 3; 4; 5; 2] /\ taken_back held held_answers = [2; 4] /\ in_use held_memory = [1; 2; 5; 3] /\
  object_at held_memory 3 KResult (OutText $"lightOn") /\ object_at held_memory 5 KString (OutText $"unknown intent") /\
  object_at held_memory 2 KString (OutText $"0.20.0") /\
  snd (mstep demo_ext shown to_c say held_memory (at_address 6) (Destroy KSlots (Some 3))) = AUndefined.
Proof.
  split; [exact held_client|]. split; [exact shown_no_zero|]. split; [exact held_fresh|].
  repeat (split; [vm_compute; reflexivity|]). vm_compute. reflexivity.
Qed.
