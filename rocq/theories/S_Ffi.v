(** Specification vocabulary for the C interface: C52. *)
From Coq Require Import String List NArith Bool.
From Verif Require Import Base M_Types M_Engine M_Filler S_Base S_Filler M_Ffi.
Import ListNotations.
Local Open Scope nat_scope.

(** The text [s] in memory, in UTF-8. *)
Definition text (c : cstr) (s : str) : Prop := unicode s /\ c = CBytes (utf8_encode s).
(** An optional list of texts: a null pointer for none. *)
Definition texts (c : cstrs) (o : option (list str)) : Prop :=
  match c, o with
  | LNull, None => True
  | LData l, Some m => Forall2 text l m
  | _, _ => False
  end.

(** The client at an address. *)
Definition client_at (w : World) (a : nat) (en : Engine) (poisoned : bool) : Prop :=
  hget Nat.eqb a (w_clients w) = Some (mkClient en poisoned).

(** The client a call is about. *)
Definition about (c : call) : option nat :=
  match c with
  | RunParse p _ _ _ _ | RunParseWithAlternatives p _ _ _ _ _ _ | RunGetSlots p _ _ _
  | RunGetSlotsWithAlternatives p _ _ _ _ | RunGetIntents p _ _ | DestroyClient p => p
  | CreateFromDir _ | CreateFromZip _ | GetModelVersion => None
  end.

(** How an outcome of the Rust interface is reported, and what that changes. *)
Definition reported (o : outcome output) (w w1 : World) (r : reply) : Prop :=
  match o with
  | Ok v => r = ROk v /\ w1 = w
  | Err e => r = RKo /\ w1 = mkWorld (w_clients w) (Some e)
  | Panic => r = RPanic
  end.

(** Texts that are null or not UTF-8, and lists that contain one. *)
Definition bad_text (c : cstr) : Prop := forall s, ~ text c s.
Definition bad_texts (l : cstrs) : Prop := exists m, l = LData m /\ ~ In CNull m /\ Exists bad_text m.
(** A client that cannot be used: null, or poisoned. *)
Definition bad_client (w : World) (p : cptr) : Prop := p = None \/ exists a en, p = Some a /\ client_at w a en true.
(** The call is refused because of what it is given. *)
Definition refused (w : World) (c : call) : Prop :=
  match c with
  | CreateFromDir root => bad_text root
  | RunParse p i wl bl _ | RunParseWithAlternatives p i wl bl _ _ _ =>
      bad_text i \/ bad_client w p \/
      ((exists a en, p = Some a /\ client_at w a en false) /\ (bad_texts wl \/ ((exists o, texts wl o) /\ bad_texts bl)))
  | RunGetSlots p i n _ | RunGetSlotsWithAlternatives p i n _ _ => bad_text i \/ bad_text n \/ bad_client w p
  | RunGetIntents p i _ => bad_text i \/ bad_client w p
  | DestroyClient p => p = None
  | CreateFromZip _ | GetModelVersion => False
  end.

(** The caller gives a pointer to a client that does not exist (any more), a list that
    is or contains a null pointer, or a null pointer for an archive. *)
Definition lists (c : call) : list cstrs :=
  match c with RunParse _ _ wl bl _ | RunParseWithAlternatives _ _ wl bl _ _ _ => [wl; bl] | _ => [] end.
Definition misused (w : World) (c : call) : Prop :=
  (exists a, about c = Some a /\ hget Nat.eqb a (w_clients w) = None) \/
  In LNoData (lists c) \/ (exists l, In (LData l) (lists c) /\ In CNull l) \/
  c = CreateFromZip None.

(** The allocator gives addresses that are not in use. *)
Definition creates (c : call) : Prop := match c with CreateFromDir _ | CreateFromZip _ => True | _ => False end.
Fixpoint allocator_ok (x : Ext) (j : output -> outcome str) (k : output -> outcome output) (w : World)
    (l : list (Env * call)) : Prop :=
  match l with
  | [] => True
  | (env, c) :: r =>
      (creates c -> hget Nat.eqb (env_address env) (w_clients w) = None) /\
      allocator_ok x j k (fst (step x j k w env c)) r
  end.
Definition no_client : World := mkWorld [] None.
