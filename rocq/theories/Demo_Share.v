(** Threads that share clients, for the examples of Properties_Share. *)
From Coq Require Import String List NArith ZArith Bool Arith.
From Verif Require Import Base F32 M_Types M_Engine M_Fs M_Filler M_Load M_Ffi S_Filler S_Ffi P_Base P_Encode P_Ffi M_Share S_Share Demo Demo_Load Demo_Ffi.
Import ListNotations.
Local Open Scope string_scope.
Local Open Scope list_scope.
Local Open Scope nat_scope.

Definition two_clients : list (nat * Client) := [(1, mkClient client1 false); (2, mkClient panicking false)].
Definition here : Env := at_address 0.
Definition thread0 : list (Env * call) := [(here, question); (here, RunParse (Some 1) not_utf8 LNull LNull false)].
Definition thread1 : list (Env * call) :=
  [(here, RunParse (Some 1) (c_str "light on") (LData [c_str "unknown"]) LNull false); (here, question); (here, CreateFromDir (c_str "e"))].
Definition thread2 : list (Env * call) :=
  [(here, RunParse (Some 2) (c_str "light on") LNull LNull false); (here, RunParse (Some 2) (c_str "light on") LNull LNull false)].
Definition three_threads : list (list (Env * call)) := [thread0; thread1; thread2].
Definition shared_by (l : list (nat * nat)) : Host := hrun demo_ext show to_c (hstart two_clients three_threads) l.
(** Thread 1 asks while thread 0 has the engine. *)
Definition first_steps : list (nat * nat) := [(0, 9); (1, 9); (2, 9); (0, 9)].
Definition all_steps : list (nat * nat) :=
  first_steps ++ [(2, 9); (0, 9); (1, 9); (2, 9); (0, 9); (2, 9); (1, 9); (1, 9); (1, 9); (1, 9); (1, 9); (1, 9); (1, 2); (1, 9)].
Definition errors_of (h : Host) : list bool := map (fun t => match ca_error t with Some _ => true | None => false end) (ho_callers h).

Lemma careful_query p i wl bl : hget Nat.eqb p two_clients <> None -> ~ In LNoData [wl; bl] ->
  (forall l, In (LData l) [wl; bl] -> ~ In CNull l) -> careful two_clients (RunParse (Some p) i wl bl false).
Proof.
  intros H N A. split; [|discriminate]. intros [(a & E & F)|[E|[(l & E & F)|E]]].
  - injection E as <-. exact (H F).
  - exact (N E).
  - exact (A l E F).
  - discriminate.
Qed.
Lemma all_careful_demo p e : In p three_threads -> In e p -> careful two_clients (snd e).
Proof.
  intros P E. cbn [three_threads In] in P.
  destruct P as [<-|[<-|[<-|[]]]]; cbn [thread0 thread1 thread2 In] in E;
    repeat (destruct E as [<-|E]; [cbn [snd]|]); try contradiction;
    try (apply careful_query; [cbn [two_clients hget Nat.eqb fst snd]; discriminate|cbn; intuition discriminate|
      intros l [Q|[Q|[]]]; try discriminate Q; injection Q as <-; cbn; intuition discriminate]).
  split; [|discriminate]. intros [(a & Q & _)|[[]|[(l & [] & _)|Q]]]; discriminate.
Qed.
Lemma client1_calm p e : In p three_threads -> In e p -> about (snd e) = Some 1 ->
  snd (step demo_ext show to_c (mkWorld two_clients None) (fst e) (snd e)) <> RPanic.
Proof.
  intros P E A. cbn [three_threads In] in P.
  destruct P as [<-|[<-|[<-|[]]]]; cbn [thread0 thread1 thread2 In] in E;
    repeat (destruct E as [<-|E]; [try discriminate A; vm_compute; discriminate|]); contradiction.
Qed.
Lemma waiting_busy : busy (shared_by first_steps) 1.
Proof.
  assert (H : option_map (fun t => length (ca_todo t)) (nth_error (ho_callers (shared_by first_steps)) 1) = Some 3) by (vm_compute; reflexivity).
  destruct (nth_error (ho_callers (shared_by first_steps)) 1) as [t|] eqn:E; [|discriminate]. exists t. split; [exact E|].
  intros Q. cbn [option_map] in H. rewrite Q in H. discriminate.
Qed.
Lemma waiting_blocked : hstep demo_ext show to_c (shared_by first_steps) 1 9 = None.
Proof.
  assert (H : (match hstep demo_ext show to_c (shared_by first_steps) 1 9 with Some _ => false | None => true end) = true) by (vm_compute; reflexivity).
  destruct (hstep demo_ext show to_c (shared_by first_steps) 1 9); [discriminate|reflexivity].
Qed.
