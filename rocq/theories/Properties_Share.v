(** Threads that share the clients of the C interface.  The statements use the sequential
    meaning of the calls (M_Ffi) and the vocabulary of S_Share. *)
From Coq Require Import String List NArith ZArith Bool Arith.
From Verif Require Import Base F32 M_Types M_Engine M_Filler M_Load M_Ffi S_Ffi M_Share S_Share P_Share Demo Demo_Load Demo_Ffi Demo_Share.
Import ListNotations.
Local Open Scope string_scope.
Local Open Scope list_scope.
Local Open Scope nat_scope.

(** C79: for every schedule, the calls reply what they would reply one after the other, in
    the order in which they returned, and each thread has its own last error. *)
Theorem C79_linearizable : forall x js cs clients programs schedule,
  let h := hrun x js cs (hstart clients programs) schedule in
  ~ In RUndefined (answers h) ->
  exists errors, one_by_one x js cs clients (fun _ => None) (returned h) = (ho_clients h, errors, answers h) /\
    (forall i t, nth_error (ho_callers h) i = Some t -> ca_error t = errors i).
Proof. exact shared_linear. Qed.
Print Assumptions C79_linearizable.

(** This order respects the program of each thread, *)
Theorem C79_program_order : forall x js cs clients programs schedule i p, nth_error programs i = Some p ->
  let h := hrun x js cs (hstart clients programs) schedule in
  exists t done, nth_error (ho_callers h) i = Some t /\ p = done ++ ca_todo t /\ Forall2 same_call done (returned_by h i).
Proof. exact shared_order. Qed.
Print Assumptions C79_program_order.

(** and time: what returns later comes later. *)
Theorem C79_time : forall x js cs h more, exists l, ho_log (hrun x js cs h more) = ho_log h ++ l.
Proof. exact shared_time. Qed.
Print Assumptions C79_time.

(** At most one thread works on an engine. *)
Theorem C79_one_at_a_time : forall x js cs clients programs schedule i j a,
  let h := hrun x js cs (hstart clients programs) schedule in works_on h i a -> works_on h j a -> i = j.
Proof. exact one_at_a_time. Qed.
Print Assumptions C79_one_at_a_time.

(** The threads are never all blocked, and they come to an end. *)
Theorem C79_no_deadlock : forall x js cs clients programs schedule i,
  let h := hrun x js cs (hstart clients programs) schedule in busy h i -> exists j new h', hstep x js cs h j new = Some h'.
Proof. exact shared_progress. Qed.
Print Assumptions C79_no_deadlock.

Theorem C79_steps_bounded : forall x js cs clients programs schedule i new h',
  let h := hrun x js cs (hstart clients programs) schedule in
  hstep x js cs h i new = Some h' -> all_steps_left h' < all_steps_left h.
Proof. exact shared_bounded. Qed.
Print Assumptions C79_steps_bounded.

(** Threads that use the clients they are given and free none meet nothing undefined, *)
Theorem C79_careful : forall x js cs clients programs, (forall p e, In p programs -> In e p -> careful clients (snd e)) ->
  forall schedule, ~ In RUndefined (answers (hrun x js cs (hstart clients programs) schedule)).
Proof. exact careful_run. Qed.
Print Assumptions C79_careful.

(** and a client that no call makes panic replies to each call as if it were the only one. *)
Theorem C79_answers : forall x js cs clients programs schedule a en,
  (forall p e, In p programs -> In e p -> careful clients (snd e)) -> client_at (mkWorld clients None) a en false ->
  (forall p e, In p programs -> In e p -> about (snd e) = Some a ->
     snd (step x js cs (mkWorld clients None) (fst e) (snd e)) <> RPanic) ->
  forall i e r, In (i, e, r) (ho_log (hrun x js cs (hstart clients programs) schedule)) -> about (snd e) = Some a ->
  r = snd (step x js cs (mkWorld clients None) (fst e) (snd e)).
Proof. exact shared_answers. Qed.
Print Assumptions C79_answers.

(** After a panic, in whatever thread, the client refuses every call of every thread. *)
Theorem C79_poisoned : forall x js cs clients programs schedule a en p,
  let h := hrun x js cs (hstart clients programs) schedule in
  ~ In RUndefined (answers h) -> client_at (mkWorld clients None) a en p ->
  (forall q e, In q programs -> In e q -> snd e <> DestroyClient (Some a)) ->
  forall l1 i e l2, ho_log h = l1 ++ (i, e, RPanic) :: l2 -> about (snd e) = Some a ->
  forall j e' r, In (j, e', r) l2 -> about (snd e') = Some a -> r = RKo.
Proof. exact shared_poison. Qed.
Print Assumptions C79_poisoned.

(** A step of one thread leaves the others, and their last errors, as they are. *)
Theorem C79_own_error : forall x js cs h i new h' j, hstep x js cs h i new = Some h' -> j <> i ->
  nth_error (ho_callers h') j = nth_error (ho_callers h) j.
Proof. exact own_error. Qed.
Print Assumptions C79_own_error.

Example C79_case :
  (forall p e, In p three_threads -> In e p -> careful two_clients (snd e)) /\
  client_at (mkWorld two_clients None) 1 client1 false /\
  (forall p e, In p three_threads -> In e p -> about (snd e) = Some 1 ->
     snd (step demo_ext show to_c (mkWorld two_clients None) (fst e) (snd e)) <> RPanic) /\
  ho_locks (shared_by first_steps) = [(2, 2); (1, 0)] /\ busy (shared_by first_steps) 1 /\
  hstep demo_ext show to_c (shared_by first_steps) 1 9 = None /\
  map (fun e => (fst (fst e), snd e)) (ho_log (shared_by all_steps)) =
    [(0, ROk (OutText $"lightOn")); (2, RPanic); (0, RKo); (2, RKo); (1, RKo); (1, ROk (OutText $"lightOn")); (1, ROk (OutClient 9))] /\
  errors_of (shared_by all_steps) = [true; true; true] /\ all_steps_left (shared_by all_steps) = 0.
Proof.
  split; [exact all_careful_demo|]. split; [reflexivity|]. split; [exact client1_calm|]. split; [vm_compute; reflexivity|].
  split; [exact waiting_busy|]. split; [exact waiting_blocked|]. repeat (split; [vm_compute; reflexivity|]). vm_compute. reflexivity.
Qed.
