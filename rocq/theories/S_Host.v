(** Specification vocabulary for hosts that use the C interface: C70. *)
From Coq Require Import String List NArith ZArith.
From Verif Require Import Base F32 M_Types M_Engine M_Prob M_Filler M_Fs M_Json M_Load M_Ffi S_Load S_Ffi S_Safe.
Import ListNotations.
Local Open Scope nat_scope.

Section Host.
  Context (x : Ext) (shape : str -> str) (ngrams : list str -> nat -> list str) (mx : Math) (L : Loader).

  (** What a directory or an archive gives: an error, or what is loaded from sound files. *)
  Definition from_sound_files (o : outcome Engine) : Prop :=
    (exists e, o = Err e) \/
    exists fo uo f p, externals_behave x mx L f /\ loaders_calm L f /\ crash_free_files L f /\ sound_files L fo f /\
      o = from_path x shape ngrams mx L fo uo f p.
  Definition sound_env (e : Env) : Prop :=
    (forall s, from_sound_files (env_dir e s)) /\ forall zip, from_sound_files (env_zip e zip).

  (** The engines that a history can meet. *)
  Definition can_load (l : list (Env * call)) (en : Engine) : Prop :=
    exists e c, In (e, c) l /\ ((exists s, env_dir e s = Ok en) \/ exists zip, env_zip e zip = Ok en).

  (** The results for a text. *)
  Inductive answers (en : Engine) (s : str) : output -> Prop :=
  | answer_parse o1 o2 w b n m r : parse_with_alternatives x o1 o2 en s w b n m = Ok r -> answers en s (OutParse r)
  | answer_slots i m r : get_slots_with_alternatives x en s i m = Ok r -> answers en s (OutSlots r)
  | answer_intents o r : get_intents o en s = Ok r -> answers en s (OutIntents r).

  (** The text given to a call. *)
  Definition input_of (c : call) : option cstr :=
    match c with
    | RunParse _ i _ _ _ | RunParseWithAlternatives _ i _ _ _ _ _ | RunGetSlots _ i _ _
    | RunGetSlotsWithAlternatives _ i _ _ _ | RunGetIntents _ i _ => Some i
    | CreateFromDir _ | CreateFromZip _ | DestroyClient _ | GetModelVersion => None
    end.

  (** The texts of a history are not too long, and its results can be converted. *)
  Definition sound_history (js : output -> outcome str) (cs : output -> outcome output) (l : list (Env * call)) : Prop :=
    forall e c, In (e, c) l -> sound_env e /\
      forall i s en, input_of c = Some i -> text i s -> can_load l en ->
        texts_below_limit x (en_resources en) s /\ forall o, answers en s o -> js o <> Panic /\ cs o <> Panic.
End Host.
