(** Specification vocabulary for C92: loadings and injections at the same time. *)
From Coq Require Import String List NArith ZArith.
From Verif Require Import Base M_Types M_Engine M_Features M_Res M_Fs M_Json M_Load M_Inject M_Overlap
  S_Load S_Inject S_Reload S_Injections.
Import ListNotations.

(** A call on the directory of an engine. *)
Inductive Call := Injects (o1 o2 o3 : HashOrder) (rq : Request) | Loads.
Definition task_of (p : path) (c : Call) : task :=
  match c with
  | Injects o1 o2 o3 rq => TInject o1 o2 o3 (request p (rq_adds rq) (rq_vanilla rq) (rq_resources rq))
  | Loads => TLoad p
  end.
(** The tree and the calls before any of them has begun. *)
Definition begun (G : Gaz) (p : path) (f : fs) (calls : list Call) : world G :=
  (f, map (fun c => (task_of p c, Waiting G)) calls).
Definition stage_at (G : Gaz) (w : world G) (i : nat) (s : stage G) : Prop := exists t, nth_error (snd w) i = Some (t, s).

(** The call has returned. *)
Definition ended (G : Gaz) (s : stage G) : Prop := (exists r, s = Injected G r) \/ (exists r, s = Loaded G r).

(** Call [i] is an injection of [rq]. *)
Definition injects (calls : list Call) (i : nat) (rq : Request) : Prop :=
  exists o1 o2 o3, nth_error calls i = Some (Injects o1 o2 o3 rq).
(** No two of the injections give values to the same entity. *)
Definition distinct (calls : list Call) : Prop :=
  forall i j ri rj e, injects calls i ri -> injects calls j rj -> requested (rq_adds ri) e -> requested (rq_adds rj) e -> i = j.

(** What the injection of [rq] gives to the entity [e]. *)
Definition given_to (rq : Request) (e : str) : Given := mkGiven (values_of (rq_adds rq) e) (rq_vanilla rq) (rq_resources rq).
(** The requests of the injections. *)
Definition requests (calls : list Call) : list Request :=
  flat_map (fun c => match c with Injects _ _ _ rq => [rq] | Loads => [] end) calls.
