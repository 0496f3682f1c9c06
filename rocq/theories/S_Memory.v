(** Specification vocabulary for the memory of the C interface: C71. *)
From Coq Require Import String List NArith Bool.
From Verif Require Import Base M_Types M_Engine M_Filler M_Ffi S_Ffi M_Memory.
Import ListNotations.
Local Open Scope nat_scope.

(** The object of kind [k] at address [a] contains [o]. *)
Definition object_at (m : Memory) (a : nat) (k : kind) (o : output) : Prop := hget Nat.eqb a (mem_objects m) = Some (k, o).
(** The addresses in use. *)
Definition in_use (m : Memory) : list nat := map fst (w_clients (mem_world m)) ++ map fst (mem_objects m).
Definition empty_memory : Memory := mkMem no_client [].

(** The allocator gives addresses that are not in use. *)
Fixpoint fresh_addresses x js cs msg (m : Memory) (l : list (Env * request)) : Prop :=
  match l with
  | [] => True
  | (e, r) :: t =>
      ~ In (env_address e) (in_use m) /\
      fresh_addresses x js cs msg (fst (mstep x js cs msg m e r)) t
  end.

(** The pointers that a history gives to the caller, and those that it takes back. *)
Fixpoint given (l : list answer) : list nat :=
  match l with
  | [] => []
  | AOk (Some a) :: t => a :: given t
  | _ :: t => given t
  end.
Definition takes_back (r : request) : cptr :=
  match r with Call (DestroyClient p) => p | Destroy _ p => p | _ => None end.
Fixpoint taken_back (l : list (Env * request)) (s : list answer) : list nat :=
  match l, s with
  | (_, r) :: l', AOk _ :: s' =>
      match takes_back r with Some a => a :: taken_back l' s' | None => taken_back l' s' end
  | _ :: l', _ :: s' => taken_back l' s'
  | _, _ => []
  end.

(** The caller destroys something that is not there, or misuses a pointer in a call. *)
Definition mistaken (m : Memory) (r : request) : Prop :=
  match r with
  | Call c => misused (mem_world m) c
  | GetLastError => False
  | Destroy k p => exists a, p = Some a /\ forall o, ~ object_at m a k o
  end.
(** The request destroys what is at the address. *)
Definition destroys (r : request) (a : nat) : Prop := exists k, r = Destroy k (Some a).
(** How an outcome of the Rust interface is handed over: an object of kind [k], or an error. *)
Definition handed (e : Env) (k : kind) (o : outcome output) (m m1 : Memory) (r : answer) : Prop :=
  match o with
  | Ok v => r = AOk (Some (env_address e)) /\ m1 = mkMem (mem_world m) ((env_address e, (k, v)) :: mem_objects m)
  | Err er => r = AKo /\ m1 = mkMem (mkWorld (w_clients (mem_world m)) (Some er)) (mem_objects m)
  | Panic => r = APanic
  end.
