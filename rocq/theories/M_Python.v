(** Model of the Python wrapper: platforms/python/snips_nlu_rust/nlu_engine.py and utils.py.
    platforms/python/ffi/src/lib.rs exports the C functions under names with a prefix. *)
From Coq Require Import String List NArith ZArith Bool Arith.
From Verif Require Import Base F32 M_Types M_Engine M_Filler M_Load M_Ffi M_Memory M_Wrap.
Import ListNotations.
Local Open Scope nat_scope.

Section Python.
  Context (x : Ext) (to_json : output -> outcome str) (to_c : output -> outcome output) (message : option error -> str).
  Notation ffi := (ffi x to_json to_c message).
  Notation ffi_ := (ffi_ x to_json to_c message).
  (** [str(Path(d))] of pathlib (external). *)
  Context (path_text : str -> str).
  (** Whether the library has the symbol [snips_nlu_engine_get_last_error].  The wrapper asks
      for that name (utils.py:29), and platforms/python/ffi/src/lib.rs:31 exports
      [ffi_snips_nlu_engine_get_last_error]. *)
  Context (symbol : bool).

  (** [s.encode("utf8")]: refuses surrogates. *)
  Definition py_encode (s : str) : prog (list byte) :=
    if forallb is_scalar s then ret (utf8_encode s) else raise None.
  (** A Python integer passed by ctypes as an unsigned [int]: cut to 32 bits if it fits in a
      C [long], refused otherwise.  nlu_engine.py:104-107 and 129-133. *)
  Definition py_uint (z : Z) : prog nat :=
    (if ((-9223372036854775808 <=? z) && (z <? 18446744073709551616))%Z
     then ret (Z.to_nat (z mod 4294967296)) else raise None).

  (** utils.py:11-16: [fill] makes the call that writes to the pointer, [use] follows. *)
  Definition string_pointer {A} (e : Memory -> Env) (fill : prog (bool * cptr)) (use : bool -> cptr -> prog A) : prog A :=
    fun m => match fill m with
             | (m1, Value (code, ptr)) => finally (use code ptr) (ffi_ e (Destroy KString ptr)) m1
             | (m1, Raised w) => finally (raise w) (ffi_ e (Destroy KString None)) m1
             | (m1, Crashed) => (m1, Crashed)
             | (m1, Broken) => (m1, Broken)
             end.

  (** utils.py:26-33.  When there is no message it is "see stderr". *)
  Definition check_ffi_error (e1 e2 : Memory -> Env) (code : bool) : prog unit :=
    if code then ret tt else
    let% msg := string_pointer e2 (if symbol then ffi e1 GetLastError else raise None)
      (fun code ptr => if code then let% s := read_text ptr in ret (Some s) else ret None) in
    raise msg.

  (** nlu_engine.py:82-101 *)
  Fixpoint py_encode_all (l : list str) : prog (list cstr) :=
    match l with
    | [] => ret []
    | s :: r => let% b := py_encode s in let% t := py_encode_all r in ret (c_string b :: t)
    end.
  (** nlu_engine.py:82-101 *)
  Definition py_list (l : option (list str)) : prog cstrs :=
    match l with
    | None => ret LNull
    | Some l => let% v := py_encode_all l in ret (LData v)
    end.

  (** nlu_engine.py:160-162 *)
  Definition py_del (e : Memory -> Env) (engine : cptr) : prog unit := ffi_ e (Call (DestroyClient engine)).

  (** nlu_engine.py:37-60.  When it raises, the object is collected; its pointer is null.
      [engine_bytes] is a mutable buffer. *)
  Definition py_init (es : meets) (engine_dir : option str) (engine_bytes : option (list byte)) : prog cptr :=
    match engine_dir, engine_bytes with
    | None, None => raise None
    | Some d, _ =>
        on_raise
          (let% b := py_encode (path_text d) in
           let% (code, p) := ffi (es 0) (Call (CreateFromDir (c_string b))) in
           let% _ := check_ffi_error (es 1) (es 2) code in
           ret p)
          (py_del (es 3) None)
    | None, Some b =>
        on_raise
          (let% (code, p) := ffi (es 0) (Call (CreateFromZip (Some b))) in
           let% _ := check_ffi_error (es 1) (es 2) code in
           ret p)
          (py_del (es 3) None)
    end.

  (** nlu_engine.py:62-112: the text that is given to [json.loads]. *)
  Definition py_parse (es : meets) (engine : cptr) (query : str) (whitelist blacklist : option (list str))
      (intents_alternatives slots_alternatives : Z) : prog str :=
    let% wl := py_list whitelist in
    let% bl := py_list blacklist in
    string_pointer (es 3)
      (let% q := py_encode query in
       let% ia := py_uint intents_alternatives in
       let% sa := py_uint slots_alternatives in
       ffi (es 0) (Call (RunParseWithAlternatives engine (c_string q) wl bl ia sa true)))
      (fun code ptr => let% _ := check_ffi_error (es 1) (es 2) code in read_text ptr).
  (** nlu_engine.py:114-138 *)
  Definition py_get_slots (es : meets) (engine : cptr) (query intent : str) (slots_alternatives : Z) : prog str :=
    string_pointer (es 3)
      (let% q := py_encode query in
       let% i := py_encode intent in
       let% sa := py_uint slots_alternatives in
       ffi (es 0) (Call (RunGetSlotsWithAlternatives engine (c_string q) (c_string i) sa true)))
      (fun code ptr => let% _ := check_ffi_error (es 1) (es 2) code in read_text ptr).
  (** nlu_engine.py:140-158 *)
  Definition py_get_intents (es : meets) (engine : cptr) (query : str) : prog str :=
    string_pointer (es 3)
      (let% q := py_encode query in
       ffi (es 0) (Call (RunGetIntents engine (c_string q) true)))
      (fun code ptr => let% _ := check_ffi_error (es 1) (es 2) code in read_text ptr).

  (** A Python program: variables that hold engines.  An engine is collected when its
      variable is bound to another one or deleted (reference counting).  The public
      methods of nlu_engine.py:37-162. *)
  Inductive py_op :=
  | PyNew (v : nat) (engine_dir : option str) (engine_bytes : option (list byte))
  | PyParse (v : nat) (query : str) (whitelist blacklist : option (list str)) (ia sa : Z)
  | PyGetSlots (v : nat) (query intent : str) (sa : Z)
  | PyGetIntents (v : nat) (query : str)
  | PyDel (v : nat).
  (** The callers: no counterpart in the code. *)
  Record Py := mkPy { py_memory : Memory; py_variables : list (nat * cptr) }.

  (** The value of an operation: the json text, or nothing.  A call made by a program: no
      counterpart in the code. *)
  Definition py_ask (st : Py) (v : nat) (ask : cptr -> prog str) : Py * ending (option str) :=
    match hget Nat.eqb v (py_variables st) with
    | None => (st, Raised None)
    | Some p => let (m, r) := (let% s := ask p in ret (Some s)) (py_memory st) in (mkPy m (py_variables st), r)
    end.
  (** A call made by a program: no counterpart in the code. *)
  Definition py_step (st : Py) (es : meets) (o : py_op) : Py * ending (option str) :=
    match o with
    | PyNew v d b =>
        match (let% p := py_init es d b in
               let% _ := match hget Nat.eqb v (py_variables st) with Some old => py_del (es 4) old | None => ret tt end in
               ret p) (py_memory st) with
        | (m, Value p) => (mkPy m (hinsert Nat.eqb v p (py_variables st)), Value None)
        | (m, Raised w) => (mkPy m (py_variables st), Raised w)
        | (m, Crashed) => (mkPy m (py_variables st), Crashed)
        | (m, Broken) => (mkPy m (py_variables st), Broken)
        end
    | PyParse v q wl bl ia sa => py_ask st v (fun p => py_parse es p q wl bl ia sa)
    | PyGetSlots v q i sa => py_ask st v (fun p => py_get_slots es p q i sa)
    | PyGetIntents v q => py_ask st v (fun p => py_get_intents es p q)
    | PyDel v =>
        match hget Nat.eqb v (py_variables st) with
        | None => (st, Raised None)
        | Some p => let (m, r) := (let% _ := py_del (es 0) p in ret None) (py_memory st) in
                    (mkPy m (filter (fun vp => negb (Nat.eqb (fst vp) v)) (py_variables st)), r)
        end
    end.
  (** A program ends when the process crashes.  The callers: no counterpart in the code. *)
  Fixpoint py_run (st : Py) (l : list (meets * py_op)) : Py * list (ending (option str)) :=
    match l with
    | [] => (st, [])
    | (es, o) :: t =>
        let (st1, r) := py_step st es o in
        match r with
        | Crashed | Broken => (st1, [r])
        | _ => let (st2, s) := py_run st1 t in (st2, r :: s)
        end
    end.
End Python.
