(** Filters of the demo engine. Not part of the model of the repository. *)
From Coq Require Import String List NArith ZArith Bool.
From Verif Require Import Base F32 M_Types M_Utils M_Engine M_Det M_Lookup M_Prob M_Fs M_Json M_Load
  S_Base S_Engine S_Rank S_Made P_Base P_Engine
  Demo P_Demo Demo_Rules Demo_Prob Demo_Crf Demo_Load Demo_Home Demo_Made.
Import ListNotations.
Local Open Scope string_scope.
Local Open Scope list_scope.
Local Open Scope nat_scope.

Definition filtered_intent (w b : option (list str)) : option str :=
  ir_name (ps_intent (get_ok no_result (parse_with_alternatives demo_ext id_order id_order home_engine bright w b 0 0))).
Lemma home_known i : known home_engine i <-> i = $"lightOn" \/ i = $"setTemp".
Proof.
  unfold known. split.
  - intros (mp & H). apply (in_map fst) in H. cbn [fst] in H.
    assert (K : In i [$"lightOn"; $"setTemp"]) by (revert H; vm_compute; exact (fun h => h)).
    destruct K as [K|[K|[]]]; auto.
  - intros [->| ->]; vm_compute; eexists; [left|right; left]; reflexivity.
Qed.
Lemma filters_case :
  load_home = Ok home_engine /\
  names_known home_engine (Some [$"lightOn"; $"lightOn"]) /\ names_known home_engine (Some [$"setTemp"]) /\
  (forall i, known home_engine i -> (allowed (Some [$"lightOn"; $"lightOn"]) None i <-> allowed None (Some [$"setTemp"]) i)) /\
  filtered_intent (Some [$"lightOn"; $"lightOn"]) None = Some $"lightOn" /\
  filtered_intent None (Some [$"setTemp"]) = Some $"lightOn" /\ filtered_intent (Some [$"setTemp"]) None <> Some $"lightOn".
Proof.
  split; [exact home_eq|].
  split; [intros l i E I; injection E as <-; apply home_known; destruct I as [<-|[<-|[]]]; auto|].
  split; [intros l i E I; injection E as <-; apply home_known; destruct I as [<-|[]]; auto|].
  split.
  - intros i K. apply home_known in K. unfold allowed. split; intros [A B]; (split; intros l E; try discriminate E); injection E as <-.
    + destruct (A _ eq_refl) as [<-|[<-|[]]]; intros [N|[]]; discriminate N.
    + destruct K as [->| ->]; [left; reflexivity|]. exfalso. apply (B _ eq_refl). left. reflexivity.
  - split; [vm_compute; reflexivity|]. split; [vm_compute; reflexivity|]. vm_compute. discriminate.
Qed.
Lemma certain_case :
  NoDup (hkeys (dp_scopes demo_dp)) /\
  map slot_count (get_ok [] (det_matches demo_ext id_order demo_dp temp_text (Some [$"setTemp"]))) = [2] /\
  is_ok (det_matches demo_ext id_order demo_dp temp_text (Some [$"setTemp"])) = true /\
  ir_name (pr_intent (get_ok no_ipr (det_parse demo_ext id_order demo_dp temp_text (Some [$"setTemp"])))) = Some $"setTemp" /\
  ir_name (pr_intent (get_ok no_ipr (det_parse demo_ext id_order demo_dp temp_text None))) = None /\
  map slot_count (get_ok [] (lookup_matches demo_ext id_order (demo_lp 0) temp_text (Some [$"setTemp"]))) = [2] /\
  is_ok (lookup_matches demo_ext id_order (demo_lp 0) temp_text (Some [$"setTemp"])) = true.
Proof.
  split; [vm_compute; repeat constructor; cbn [In]; intros K; repeat destruct K as [K|K]; try discriminate K; contradiction|].
  repeat split; vm_compute; reflexivity.
Qed.
