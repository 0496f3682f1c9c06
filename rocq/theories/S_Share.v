(** Specification vocabulary for threads that share the clients of the C interface: C79. *)
From Coq Require Import String List NArith Bool Arith.
From Verif Require Import Base M_Types M_Engine M_Filler M_Load M_Ffi S_Ffi M_Share.
Import ListNotations.
Local Open Scope nat_scope.

(** Calls made one after the other by several threads: each thread has its own last error. *)
Fixpoint one_by_one (x : Ext) (js : output -> outcome str) (cs : output -> outcome output)
    (clients : list (nat * Client)) (errors : nat -> option error) (l : list (nat * (Env * call)))
    : list (nat * Client) * (nat -> option error) * list reply :=
  match l with
  | [] => (clients, errors, [])
  | (i, (env, c)) :: r =>
      let (w, a) := step x js cs (mkWorld clients (errors i)) env c in
      let '(clients', errors', rs) := one_by_one x js cs (w_clients w) (fun j => if Nat.eqb j i then w_error w else errors j) r in
      (clients', errors', a :: rs)
  end.

(** The calls that have returned, their replies, and those of one thread. *)
Definition returned (h : Host) : list (nat * (Env * call)) := map fst (ho_log h).
Definition answers (h : Host) : list reply := map snd (ho_log h).
Definition returned_by (h : Host) (i : nat) : list (Env * call) :=
  map snd (filter (fun e => Nat.eqb (fst e) i) (returned h)).

(** The same call, whatever address the allocator gives. *)
Definition same_call (a b : Env * call) : Prop := snd a = snd b /\ with_address (fst a) 0 = with_address (fst b) 0.

(** The thread works on the engine of a client. *)
Definition works_on (h : Host) (i a : nat) : Prop :=
  exists t, nth_error (ho_callers h) i = Some t /\
    match ca_place t with Inside b _ | Leaving b _ => a = b | Outside | Made _ => False end.
(** The thread has calls to make. *)
Definition busy (h : Host) (i : nat) : Prop := exists t, nth_error (ho_callers h) i = Some t /\ ca_todo t <> [].

(** The steps that are left. *)
Definition steps_left (t : Caller) : nat :=
  match ca_place t with
  | Outside => 3 * length (ca_todo t)
  | Made _ | Inside _ _ => 3 * length (ca_todo t) - 1
  | Leaving _ _ => 3 * length (ca_todo t) - 2
  end.
Definition all_steps_left (h : Host) : nat := list_sum (map steps_left (ho_callers h)).

(** The calls of a thread that only uses the clients given, and frees none. *)
Definition careful (clients : list (nat * Client)) (c : call) : Prop :=
  ~ misused (mkWorld clients None) c /\ forall a, c <> DestroyClient (Some a).
