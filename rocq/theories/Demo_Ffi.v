(** A history of calls of the C interface, for the examples of Properties_Ffi. *)
From Coq Require Import String List NArith ZArith Bool Arith.
From Verif Require Import Base F32 M_Types M_Engine M_Fs M_Filler M_Load M_Ffi S_Filler S_Ffi P_Base P_Encode P_Ffi Demo Demo_Rules Demo_Prob Demo_Load.
Import ListNotations.
Local Open Scope string_scope.
Local Open Scope list_scope.
Local Open Scope nat_scope.

(** Only the main intent is shown, as text. *)
Definition intent_text (i : option str) : str := match i with Some n => n | None => $"none" end.
Definition show (o : output) : outcome str :=
  match o with
  | OutParse r => Ok (intent_text (ir_name (ps_intent r)))
  | OutIntents l => Ok (flat_map (fun i => intent_text (ir_name i) ++ $" ") l)
  | OutSlots l => Ok (flat_map (fun s => sl_raw_value s ++ $" ") l)
  | _ => Err EOther
  end.
Definition to_c (o : output) : outcome output := let* s := show o in Ok (OutText s).

(** Directory "e" holds the engine of Demo_Load; directory "p" one that panics. *)
Definition panicking : Engine := demo_engine [const_parser Panic Panic Panic].
Definition on_disk (s : str) : outcome Engine :=
  if str_eqb s $"p" then Ok panicking else
  from_path demo_ext (fun s => s) no_ngrams demo_math demo_loader (fun _ _ => id_order) (fun _ _ => id_order) (tree "E") (components s).
Definition at_address (a : nat) : Env := mkEnv on_disk (fun _ => Err EOther) a id_order id_order.
Definition c_str (s : string) : cstr := CBytes (utf8_encode $s).
Definition not_utf8 : cstr := CBytes [104%N; 255%N].

Definition after (l : list (Env * call)) : World := fst (run demo_ext show to_c no_client l).
Definition replies (l : list (Env * call)) : list reply := snd (run demo_ext show to_c no_client l).

Definition question : call := RunParse (Some 1) (c_str "light on in the kitchen") LNull (LData [c_str "setTemp"]) false.
Definition created : list (Env * call) := [(at_address 1, CreateFromDir (c_str "e"))].
Definition between : list (Env * call) :=
  [(at_address 2, CreateFromDir (c_str "p"));
   (at_address 0, RunGetIntents (Some 1) (c_str "light on") true);
   (at_address 0, RunParse (Some 1) not_utf8 LNull LNull false);
   (at_address 0, RunParse None (c_str "light on") LNull LNull false);
   (at_address 0, RunParse (Some 2) (c_str "light on") LNull LNull false);
   (at_address 0, RunParse (Some 2) (c_str "light on") LNull LNull false);
   (at_address 3, CreateFromDir (c_str "nowhere"));
   (at_address 0, RunParse (Some 1) (c_str "light on") (LData [c_str "unknown"]) LNull false);
   (at_address 0, DestroyClient (Some 2));
   (at_address 0, GetModelVersion)].

Lemma demo_text s : forallb is_scalar ($s) = true -> text (c_str s) $s.
Proof.
  intros U. split; auto. intros c I. apply is_scalar_spec. rewrite forallb_forall in U. auto.
Qed.
Lemma not_utf8_bad : bad_text not_utf8.
Proof.
  intros s [U E]. unfold not_utf8 in E. injection E as E.
  assert (H : utf8_decode [104%N; 255%N] = Some s) by (apply utf8_iff; split; auto). discriminate H.
Qed.

Definition client1 : Engine := get_ok no_engine (on_disk $"e").
Lemma client1_eq : on_disk $"e" = Ok client1.
Proof. apply get_ok_eq. vm_compute. reflexivity. Qed.
Lemma created_at : client_at (after created) 1 client1 false.
Proof.
  unfold after, created. cbn [run].
  destruct (step demo_ext show to_c no_client (at_address 1) (CreateFromDir (c_str "e"))) as [w r] eqn:E.
  pose proof (create_dir_call demo_ext show to_c _ _ _ _ _ _ (demo_text "e" eq_refl) E) as H.
  cbn [env_dir at_address] in H. rewrite client1_eq in H. exact (proj1 (proj2 H)).
Qed.
Lemma between_ok : allocator_ok demo_ext show to_c (after created) between.
Proof. unfold between. cbn [allocator_ok]. repeat split; intros H; try destruct H; vm_compute; reflexivity. Qed.
Lemma between_no_panic k e d : nth_error between k = Some (e, d) -> about d = Some 1 ->
  nth_error (snd (run demo_ext show to_c (after created) between)) k <> Some RPanic.
Proof.
  intros N A. unfold between in N.
  do 10 (destruct k as [|k]; [injection N as _ <-; try discriminate A; vm_compute; discriminate|]).
  cbn in N. destruct k; discriminate N.
Qed.
