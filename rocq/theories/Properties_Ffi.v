(** C52: the C interface. *)
From Coq Require Import String List NArith ZArith Bool Arith.
From Verif Require Import Base F32 M_Types M_Engine M_Filler M_Load M_Ffi S_Filler S_Ffi P_Ffi Demo Demo_Load Demo_Ffi.
Import ListNotations.
Local Open Scope string_scope.
Local Open Scope list_scope.
Local Open Scope nat_scope.

(** [js] and [cs] are the conversions of results to json and to C structures; [e] is what
    the call meets outside of the library. *)

(** A request gives the result of the Rust interface, converted, or KO and the error. *)
Theorem C52_parse : forall x js cs w e a en input s wl w' bl b' ia sa w1 r,
  client_at w a en false -> text input s -> texts wl w' -> texts bl b' ->
  step x js cs w e (RunParseWithAlternatives (Some a) input wl bl ia sa false) = (w1, r) ->
  reported (let* v := parse_with_alternatives x (env_ord1 e) (env_ord2 e) en s w' b' ia sa in cs (OutParse v)) w w1 r.
Proof. exact parse_call. Qed.
Print Assumptions C52_parse.

Theorem C52_slots : forall x js cs w e a en input s intent i sa w1 r,
  client_at w a en false -> text input s -> text intent i ->
  step x js cs w e (RunGetSlotsWithAlternatives (Some a) input intent sa false) = (w1, r) ->
  reported (let* v := get_slots_with_alternatives x en s i sa in cs (OutSlots v)) w w1 r.
Proof. exact slots_call. Qed.
Print Assumptions C52_slots.

Theorem C52_intents : forall x js cs w e a en input s w1 r,
  client_at w a en false -> text input s ->
  step x js cs w e (RunGetIntents (Some a) input false) = (w1, r) ->
  reported (let* v := get_intents (env_ord1 e) en s in cs (OutIntents v)) w w1 r.
Proof. exact intents_call. Qed.
Print Assumptions C52_intents.

(** The functions without alternatives ask for none. *)
Theorem C52_no_alternatives : forall x js cs w e p input wl bl intent json,
  step x js cs w e (RunParse p input wl bl json) = step x js cs w e (RunParseWithAlternatives p input wl bl 0 0 json) /\
  step x js cs w e (RunGetSlots p input intent json) = step x js cs w e (RunGetSlotsWithAlternatives p input intent 0 json).
Proof. exact short_calls. Qed.
Print Assumptions C52_no_alternatives.

(** The functions that give json give the json of the same results. *)
Theorem C52_json : forall x js cs, (forall o s, js o = Ok s -> ~ In 0%N s) ->
  forall w e a en input s, client_at w a en false -> text input s ->
  (forall wl w' bl b' ia sa w1 r, texts wl w' -> texts bl b' ->
     step x js cs w e (RunParseWithAlternatives (Some a) input wl bl ia sa true) = (w1, r) ->
     reported (let* v := parse_with_alternatives x (env_ord1 e) (env_ord2 e) en s w' b' ia sa in
               let* t := js (OutParse v) in Ok (OutText t)) w w1 r) /\
  (forall intent i sa w1 r, text intent i ->
     step x js cs w e (RunGetSlotsWithAlternatives (Some a) input intent sa true) = (w1, r) ->
     reported (let* v := get_slots_with_alternatives x en s i sa in let* t := js (OutSlots v) in Ok (OutText t)) w w1 r) /\
  (forall w1 r, step x js cs w e (RunGetIntents (Some a) input true) = (w1, r) ->
     reported (let* v := get_intents (env_ord1 e) en s in let* t := js (OutIntents v) in Ok (OutText t)) w w1 r).
Proof. exact json_calls. Qed.
Print Assumptions C52_json.

(** A null pointer, a text that is not UTF-8 or a client that has panicked is refused:
    the clients are as before and the error is recorded. *)
Theorem C52_refused : forall x js cs w e c, refused w c ->
  snd (step x js cs w e c) = RKo /\ fst (step x js cs w e c) = mkWorld (w_clients w) (Some EOther).
Proof. exact refused_call. Qed.
Print Assumptions C52_refused.

(** The last error changes exactly when a call returns KO. *)
Theorem C52_last_error : forall x js cs w e c, match snd (step x js cs w e c) with
  | RKo => exists er, w_error (fst (step x js cs w e c)) = Some er
  | _ => w_error (fst (step x js cs w e c)) = w_error w
  end.
Proof. exact error_recorded. Qed.
Print Assumptions C52_last_error.

(** A client is created with the engine of the directory or of the archive, *)
Theorem C52_created : forall x js cs w e w1 r,
  (forall root s, text root s -> step x js cs w e (CreateFromDir root) = (w1, r) ->
     match env_dir e s with
     | Ok en => r = ROk (OutClient (env_address e)) /\ client_at w1 (env_address e) en false /\ w_error w1 = w_error w
     | Err er => r = RKo /\ w1 = mkWorld (w_clients w) (Some er)
     | Panic => r = RPanic /\ w1 = w
     end) /\
  (forall zip, step x js cs w e (CreateFromZip (Some zip)) = (w1, r) ->
     match env_zip e zip with
     | Ok en => r = ROk (OutClient (env_address e)) /\ client_at w1 (env_address e) en false /\ w_error w1 = w_error w
     | Err er => r = RKo /\ w1 = mkWorld (w_clients w) (Some er)
     | Panic => r = RPanic /\ w1 = w
     end).
Proof. exact create_calls. Qed.
Print Assumptions C52_created.

(** keeps that engine until it is destroyed, whatever is called, and can be used until a
    call on it panics, *)
Theorem C52_kept : forall x js cs l w a en p, allocator_ok x js cs w l ->
  (forall e, ~ In (e, DestroyClient (Some a)) l) -> client_at w a en p ->
  exists p', client_at (fst (run x js cs w l)) a en p' /\
    (p' = true <-> p = true \/ exists k e c, nth_error l k = Some (e, c) /\ about c = Some a /\
                                nth_error (snd (run x js cs w l)) k = Some RPanic).
Proof. exact client_kept. Qed.
Print Assumptions C52_kept.

(** gives the same replies after any such history, *)
Theorem C52_history : forall x js cs w l a en e c, client_at w a en false -> allocator_ok x js cs w l ->
  (forall e', ~ In (e', DestroyClient (Some a)) l) ->
  (forall k e' d, nth_error l k = Some (e', d) -> about d = Some a -> nth_error (snd (run x js cs w l)) k <> Some RPanic) ->
  about c = Some a -> snd (step x js cs (fst (run x js cs w l)) e c) = snd (step x js cs w e c).
Proof. exact after_any_history. Qed.
Print Assumptions C52_history.

(** and is gone once it is destroyed. *)
Theorem C52_destroyed : forall x js cs w e a en p, client_at w a en p ->
  snd (step x js cs w e (DestroyClient (Some a))) = ROk OutNothing /\
  hget Nat.eqb a (w_clients (fst (step x js cs w e (DestroyClient (Some a))))) = None.
Proof. exact destroyed. Qed.
Print Assumptions C52_destroyed.

(** What happens is undefined only for a client that does not exist, a null archive, or a
    list that is or contains a null pointer. *)
Theorem C52_undefined_only : forall x js cs w e c, snd (step x js cs w e c) = RUndefined -> misused w c.
Proof. exact undefined_only. Qed.
Print Assumptions C52_undefined_only.

(** A null pointer after valid texts in one of the lists does make it undefined. *)
Theorem C52_null_element : forall x js cs w e a en input s ia sa json pre pre' post,
  client_at w a en false -> text input s -> Forall2 text pre pre' ->
  (forall bl, snd (step x js cs w e (RunParseWithAlternatives (Some a) input (LData (pre ++ CNull :: post)) bl ia sa json)) = RUndefined) /\
  (forall wl w', texts wl w' ->
     snd (step x js cs w e (RunParseWithAlternatives (Some a) input wl (LData (pre ++ CNull :: post)) ia sa json)) = RUndefined).
Proof. exact null_in_list. Qed.
Print Assumptions C52_null_element.

Theorem C52_version : forall x js cs w e, step x js cs w e GetModelVersion = (w, ROk (OutText $"0.20.0")).
Proof. exact version_call. Qed.
Print Assumptions C52_version.

(** A history with another client that panics, refused calls and failed creations. *)
Example C52_case :
  client_at (after created) 1 client1 false /\ allocator_ok demo_ext show to_c (after created) between /\
  refused (after created) (RunParse (Some 1) not_utf8 LNull LNull false) /\
  texts (LData [c_str "setTemp"]) (Some [$"setTemp"]) /\
  replies (created ++ between ++ [(at_address 0, question)]) =
    [ROk (OutClient 1); ROk (OutClient 2); ROk (OutText $"none lightOn setTemp "); RKo; RKo; RPanic; RKo; RKo; RKo;
     ROk OutNothing; ROk (OutText $"0.20.0"); ROk (OutText $"lightOn")] /\
  snd (step demo_ext show to_c (fst (run demo_ext show to_c (after created) between)) (at_address 0) question) =
    ROk (OutText $"lightOn").
Proof.
  split; [exact created_at|]. split; [exact between_ok|]. split; [left; exact not_utf8_bad|].
  split; [constructor; [apply demo_text; reflexivity|constructor]|].
  split; [vm_compute; reflexivity|].
  rewrite (C52_history demo_ext show to_c (after created) between 1 client1 (at_address 0) question created_at between_ok).
  - vm_compute. reflexivity.
  - intros e I. unfold between in I. cbn [In] in I. repeat (destruct I as [I|I]; [discriminate I|]). exact I.
  - exact between_no_panic.
  - reflexivity.
Qed.
