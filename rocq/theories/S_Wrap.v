(** Specification vocabulary for the Python, Kotlin and Swift wrappers: C72, C73, C74. *)
From Coq Require Import String List NArith ZArith Bool.
From Verif Require Import Base M_Types M_Engine M_Filler S_Filler M_Ffi S_Ffi M_Memory S_Memory M_Wrap M_Kotlin M_Swift.
Import ListNotations.
Local Open Scope nat_scope.

(** The allocator gives addresses that are not in use. *)
Definition allocator (es : meets) : Prop := forall i m, ~ In (env_address (es i m)) (in_use m).
(** The characters before the first zero. *)
Inductive cut_at_zero : str -> str -> Prop :=
| cut_nil : cut_at_zero [] []
| cut_zero s : cut_at_zero (0%N :: s) []
| cut_char c s t : c <> 0%N -> cut_at_zero s t -> cut_at_zero (c :: s) (c :: t).
Inductive cut_list : option (list str) -> option (list str) -> Prop :=
| cut_none : cut_list None None
| cut_some l m : Forall2 cut_at_zero l m -> cut_list (Some l) (Some m).
Definition unicode_list (o : option (list str)) : Prop := forall l s, o = Some l -> In s l -> unicode s.
(** A number that fits in a C [unsigned int]. *)
Definition uint32 (z : Z) : Prop := (0 <= z < 4294967296)%Z.

(** Only the last error has changed. *)
Definition same_memory (m m1 : Memory) : Prop :=
  mem_objects m1 = mem_objects m /\ w_clients (mem_world m1) = w_clients (mem_world m).
(** How the outcome of the Rust interface reaches the user: a value, or an exception with
    the message of the error; memory is as before. *)
Definition passed_on {A} (why : error -> option str) (o : outcome A) (m m1 : Memory) (r : ending A) : Prop :=
  match o with
  | Ok v => r = Value v /\ same_memory m m1
  | Err e => r = Raised (why e) /\ same_memory m m1
  | Panic => r = Crashed
  end.
(** How a new engine reaches the user. *)
Definition engine_made (why : error -> option str) (o : outcome Engine) (m m1 : Memory) (r : ending cptr) : Prop :=
  match o with
  | Ok en => exists a, r = Value (Some a) /\ mem_objects m1 = mem_objects m /\ ~ In a (in_use m) /\
               w_clients (mem_world m1) = (a, mkClient en false) :: w_clients (mem_world m)
  | Err e => r = Raised (why e) /\ same_memory m m1
  | Panic => r = Crashed
  end.
(** The addresses of the clients. *)
Definition clients (m : Memory) : list nat := map fst (w_clients (mem_world m)).

(** How a structure reaches the Kotlin user.  When its conversion throws, it stays in memory. *)
Definition converted {V} (view : output -> option V) (k : kind) (why : error -> option str) (o : outcome output) (m m1 : Memory) (r : ending V) : Prop :=
  match o with
  | Ok c =>
      match view c with
      | Some v => r = Value v /\ same_memory m m1
      | None => r = Raised None /\ w_clients (mem_world m1) = w_clients (mem_world m) /\
                exists a, mem_objects m1 = (a, (k, c)) :: mem_objects m
      end
  | Err e => r = Raised (why e) /\ same_memory m m1
  | Panic => r = Crashed
  end.
(** One more C string in memory, with a message. *)
Definition message_left (s : str) (m m1 : Memory) : Prop :=
  w_clients (mem_world m1) = w_clients (mem_world m) /\ exists a, mem_objects m1 = (a, (KString, OutText s)) :: mem_objects m.
(** How a structure reaches the Swift user.  The message of an error stays in memory. *)
Definition converted_swift {V} (view : output -> option V) (why : error -> str) (o : outcome output) (m m1 : Memory) (r : ending V) : Prop :=
  match o with
  | Ok c => match view c with Some v => r = Value v | None => r = Raised None end /\ same_memory m m1
  | Err e => r = Raised (Some (why e)) /\ message_left (why e) m m1
  | Panic => r = Crashed
  end.
Definition engine_made_swift (why : error -> str) (o : outcome Engine) (m m1 : Memory) (r : ending cptr) : Prop :=
  match o with
  | Ok en => exists a, r = Value (Some a) /\ mem_objects m1 = mem_objects m /\ ~ In a (in_use m) /\
               w_clients (mem_world m1) = (a, mkClient en false) :: w_clients (mem_world m)
  | Err e => r = Raised (Some (why e)) /\ message_left (why e) m m1
  | Panic => r = Crashed
  end.

(** The engine that a Kotlin operation is about. *)
Definition kt_engine (o : kt_op) : option nat :=
  match o with
  | KtParse n _ _ _ _ _ _ | KtGetSlots n _ _ _ _ | KtGetIntents n _ _ | KtClose n => Some n
  | _ => None
  end.
(** The operation passes an empty list of intents. *)
Definition empty_filter (o : kt_op) : Prop :=
  match o with KtParse _ _ wl bl _ _ _ => wl = Some [] \/ bl = Some [] | _ => False end.
(** No operation is about an engine that an earlier one closes. *)
Definition no_use_after_close (l : list (meets * kt_op)) : Prop :=
  forall l1 e o l2 n e1, l = l1 ++ (e, o) :: l2 -> kt_engine o = Some n -> ~ In (e1, KtClose n) l1.
(** The engines that a history has closed. *)
Fixpoint closed {V} (l : list (meets * kt_op)) (rs : list (ending (@kt_value V))) : list nat :=
  match l, rs with
  | (_, KtClose n) :: l', Value _ :: rs' => n :: closed l' rs'
  | _ :: l', _ :: rs' => closed l' rs'
  | _, _ => []
  end.
(** A Kotlin [Int] and the count that it stands for: a negative one is a huge count. *)
Definition int_count (z : Z) (n : nat) : Prop :=
  (0 <= z < 2147483648 /\ Z.of_nat n = z)%Z \/ (-2147483648 <= z < 0 /\ Z.of_nat n = z + 4294967296)%Z.

(** The Swift texts of an operation. *)
Definition sw_data_ok (o : sw_op) : Prop :=
  match o with SwNewURL _ p => unicode p | SwNewData _ d => d <> [] | _ => True end.
(** How many operations of a program raised an error of the library. *)
Fixpoint library_errors {A} (rs : list (ending A)) : nat :=
  match rs with
  | [] => 0
  | Raised (Some _) :: t => S (library_errors t)
  | _ :: t => library_errors t
  end.
(** The text of the error that the Python wrapper raises: the library is asked for it under
    a name that it may not have. *)
Definition python_message (msg : option error -> str) (symbol : bool) (e : error) : option str :=
  if symbol then Some (msg (Some e)) else None.

(** A Python number that ctypes can pass: it fits in a signed or an unsigned C [long]. *)
Definition passable (z : Z) : Prop := (- 2 ^ 63 <= z < 2 ^ 64)%Z.
(** Two numbers with the same 32 lower bits. *)
Definition same_low_bits (z z' : Z) : Prop := exists k, (z' = z + k * 2 ^ 32)%Z.
