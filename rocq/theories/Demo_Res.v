(** Small files for the examples of Properties_Res. *)
From Coq Require Import String List NArith ZArith Bool Arith.
From Verif Require Import Base M_Types M_Res S_Res P_Res Demo.
Import ListNotations.
Local Open Scope nat_scope.

Definition tsv (rows : list (string * string)) : str :=
  flat_map (fun r => $(fst r) ++ [tab] ++ $(snd r) ++ [newline]) rows.
Definition cluster_in (rows : list (string * string)) (w : string) : option str :=
  match clusters_from_reader id_order demo_hash (tsv rows) with Ok cl => get_cluster demo_hash cl $w | _ => None end.

Lemma clusters_reprinted :
  cluster_in [("cat", "007"); ("dog", "+5")]%string "cat" = Some $"7" /\
  cluster_in [("cat", "007"); ("dog", "+5")]%string "dog" = Some $"5" /\
  cluster_in [("cat", "007"); ("dog", "pets")]%string "cat" = Some $"7" /\
  cluster_in [("dog", "pets"); ("cat", "007")]%string "cat" = Some $"007".
Proof. repeat split; reflexivity. Qed.

Lemma clusters_case :
  is_table tab (tsv [("cat", "12"); ("dog", "pets"); ("cat", "34")]%string) [[$"cat"; $"12"]; [$"dog"; $"pets"]; [$"cat"; $"34"]] /\
  cluster_in [("cat", "12"); ("dog", "pets"); ("cat", "34")]%string "cat" = Some $"34" /\
  cluster_in [("cat", "12"); ("dog", "65536")]%string "dog" = Some $"65536" /\
  cluster_in [("cat", "12"); ("dog", "pets")]%string "bird" = None /\
  clusters_from_reader id_order demo_hash $"cat" = Panic.
Proof. split; [apply table_iff; reflexivity|repeat split; reflexivity]. Qed.

Lemma unnormalised_not_found :
  exists m, stemmer_from_reader (x_hash demo_ext) $"do,Done,did" = Ok m /\
    stem demo_ext m $"did" = $"do" /\ stem demo_ext m $"DID" = $"do" /\ stem demo_ext m $"Done" = $"Done".
Proof. eexists. repeat split. Qed.

Lemma stems_case :
  exists m, stemmer_from_reader (x_hash demo_ext) ($"be,is,are" ++ [13; 10; 10]%N ++ $"do,done,is") = Ok m /\
    stem demo_ext m $"is" = $"do" /\ stem demo_ext m $"are" = $"be" /\ stem demo_ext m $"fly" = $"fly" /\
    is_line ($"dog" ++ [13; 10]%N ++ $"cat") $"dog" /\
    gazetteer_contains demo_hash (gazetteer_from_reader demo_hash ($"dog" ++ [13; 10]%N ++ $"cat")) $"dog" = true /\
    gazetteer_contains demo_hash (gazetteer_from_reader demo_hash ($"dog" ++ [13; 10]%N ++ $"cat")) $"bird" = false.
Proof.
  eexists. split; [reflexivity|]. split; [reflexivity|]. split; [reflexivity|]. split; [reflexivity|].
  split; [|split; reflexivity]. apply lines_iff; [discriminate|]. left. reflexivity.
Qed.

