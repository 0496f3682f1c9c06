(** Programs for the examples of Properties_History. *)
From Coq Require Import String List NArith ZArith Bool Arith Lia.
From Verif Require Import Base F32 M_Types M_Engine M_Filler M_Load M_Ffi S_Filler S_Ffi P_Ffi M_Memory S_Memory P_Memory
  M_Wrap M_Python M_Kotlin M_Swift S_Wrap P_Wrap S_History Demo Demo_Load Demo_Ffi Demo_Wrap.
Import ListNotations.
Local Open Scope string_scope.
Local Open Scope list_scope.
Local Open Scope nat_scope.

Definition demo_out : Outside := mkOutside on_disk (fun _ => Err EOther) id_order id_order.
Lemma demo_finds : finds demo_es demo_out.
Proof. split; [exact demo_allocator|]. intros i m. repeat split. Qed.
Lemma plain_text s : forallb is_scalar s = true -> unicode s.
Proof. apply scalar_unicode. Qed.
Lemma one_text s : unicode s -> unicode_list (Some [s]).
Proof. intros U l t H I. injection H as <-. destruct I as [<-|[]]. exact U. Qed.
Lemma no_text : unicode_list None.
Proof. intros l t H. discriminate. Qed.
Lemma one_cut s : cut_list (Some [s]) (Some [before_zero s]).
Proof. constructor. constructor; [apply before_zero_cut|constructor]. Qed.
Lemma surrogate : ~ unicode [104%N; 55296%N].
Proof. intros U. apply unicode_scalar in U. discriminate. Qed.

Ltac plain := apply plain_text; reflexivity.
Ltac small := split; [discriminate|reflexivity].
Lemma py_demo_means es o : In (es, o) (py_demo ++ [(demo_es, PyGetIntents 0 $"light on")]) -> exists d, py_means demo_ext shown (fun s => s) es o d.
Proof.
  intros I. unfold py_demo, step_by in I. cbn [map app In] in I. repeat (destruct I as [I|I]; [injection I as <- <-|]); [..|contradiction]; eexists.
  - eapply py_new_dir; [exact demo_finds|plain|apply before_zero_cut].
  - eapply py_means_parse; [exact demo_finds|plain|exact no_text|apply one_text; plain|small|small|apply before_zero_cut|constructor|apply one_cut].
  - eapply py_means_slots; [exact demo_allocator|plain|plain|small|apply before_zero_cut|apply before_zero_cut].
  - eapply py_new_dir; [exact demo_finds|plain|apply before_zero_cut].
  - eapply py_means_intents; [exact demo_finds|plain|apply before_zero_cut].
  - eapply py_new_dir; [exact demo_finds|plain|apply before_zero_cut].
  - eapply py_parse_bad; [exact demo_allocator|exact surrogate].
  - eapply py_new_dir; [exact demo_finds|plain|apply before_zero_cut].
  - eapply py_means_del. exact demo_allocator.
  - eapply py_means_intents; [exact demo_finds|plain|apply before_zero_cut].
Qed.
Lemma int_small z n : (0 <= z < 2147483648)%Z -> Z.of_nat n = z -> int_count z n.
Proof. intros H E. left. split; assumption. Qed.
Lemma kt_demo_means es o : In (es, o) kt_demo -> exists n d, kt_means demo_ext shown to_c (fun s => s) demo_view n es o d.
Proof.
  intros I. unfold kt_demo, step_by in I. cbn [map app In] in I. repeat (destruct I as [I|I]; [injection I as <- <-|]); [..|contradiction]; exists 0; eexists.
  - apply kt_means_version. exact demo_allocator.
  - eapply kt_means_file; [exact demo_finds|plain|apply before_zero_cut].
  - eapply (kt_means_parse _ _ _ _ _ _ _ _ _ _ _ _ _ _ _ _ 0 _ 1); [exact demo_finds|plain|exact no_text|apply one_text; plain|discriminate|discriminate
      |apply int_small; [lia|reflexivity]|apply int_small; [lia|reflexivity]|apply before_zero_cut|constructor|apply one_cut].
  - eapply (kt_means_parse _ _ _ _ _ _ _ _ _ _ _ _ _ _ _ _ 0 _ 1); [exact demo_finds|plain|apply one_text; plain|exact no_text|discriminate|discriminate
      |apply int_small; [lia|reflexivity]|apply int_small; [lia|reflexivity]|apply before_zero_cut|apply one_cut|constructor].
  - eapply kt_means_file; [exact demo_finds|plain|apply before_zero_cut].
  - eapply kt_means_intents; [exact demo_finds|plain|apply before_zero_cut].
  - eapply kt_means_file; [exact demo_finds|plain|apply before_zero_cut].
  - eapply kt_means_close. exact demo_allocator.
  - eapply (kt_means_slots _ _ _ _ _ _ _ _ _ _ _ _ _ 0); [exact demo_allocator|plain|plain|apply int_small; [lia|reflexivity]|apply before_zero_cut|apply before_zero_cut].
Qed.
Lemma sw_demo_means es o : In (es, o) (sw_demo ++ map step_by [SwRelease 0; SwGetIntents 0 $"light on"]) -> exists d, sw_means demo_ext to_c demo_view es o d.
Proof.
  intros I. unfold sw_demo, step_by in I. cbn [map app In] in I. repeat (destruct I as [I|I]; [injection I as <- <-|]); [..|contradiction]; eexists.
  - eapply sw_means_url; [exact demo_finds|plain|apply before_zero_cut].
  - eapply sw_means_parse; [exact demo_finds|plain|exact no_text|apply one_text; plain|small|small|apply before_zero_cut|constructor|apply one_cut].
  - eapply sw_means_url; [exact demo_finds|plain|apply before_zero_cut].
  - eapply sw_means_url; [exact demo_finds|plain|apply before_zero_cut].
  - eapply sw_means_data; [exact demo_finds|discriminate|small].
  - eapply sw_means_intents; [exact demo_finds|plain|apply before_zero_cut].
  - eapply sw_means_slots; [exact demo_allocator|plain|plain|small|apply before_zero_cut|apply before_zero_cut].
  - eapply sw_means_release. exact demo_allocator.
  - eapply sw_means_intents; [exact demo_finds|plain|apply before_zero_cut].
Qed.
