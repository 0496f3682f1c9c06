(** Properties of the resource files: C40, C41.  [Print Assumptions] beneath each theorem
    lists what it rests on. *)
From Coq Require Import String List NArith ZArith Bool Arith.
From Verif Require Import Base M_Types M_Res S_Res P_Res P_Clusters Demo Demo_Res.
Import ListNotations.
Local Open Scope nat_scope.

(** A text is one table. *)
Theorem C40_one_table : forall delimiter text rows,
  is_table delimiter text rows <-> rows = csv_records delimiter text.
Proof. exact table_iff. Qed.
Print Assumptions C40_one_table.

(** ** C40 *)
Theorem C40_last_declared : forall ord hash text cl rows pre row post w,
  is_table tab text rows -> clusters_from_reader ord hash text = Ok cl -> rows = pre ++ row :: post ->
  hash (row_word row) = hash w -> (forall r, In r post -> hash (row_word r) <> hash w) ->
  exists shown, get_cluster hash cl w = Some shown /\ printed (pre ++ [row]) (row_cluster row) shown.
Proof. exact cluster_listed. Qed.
Print Assumptions C40_last_declared.

Theorem C40_not_declared : forall ord hash text cl rows w,
  is_table tab text rows -> clusters_from_reader ord hash text = Ok cl ->
  (forall r, In r rows -> hash (row_word r) <> hash w) -> get_cluster hash cl w = None.
Proof. exact cluster_unlisted. Qed.
Print Assumptions C40_not_declared.

Theorem C40_printed_as_in_the_file : forall ord hash text cl rows pre row post w,
  is_table tab text rows -> clusters_from_reader ord hash text = Ok cl -> rows = pre ++ row :: post ->
  hash (row_word row) = hash w -> (forall r, In r post -> hash (row_word r) <> hash w) ->
  (is_numeral (row_cluster row) -> canonical_numeral (row_cluster row)) ->
  get_cluster hash cl w = Some (row_cluster row).
Proof. exact cluster_as_is. Qed.
Print Assumptions C40_printed_as_in_the_file.

(** When the file can be loaded, is refused, or makes the program panic. *)
Theorem C40_loading : forall ord hash text rows, is_table tab text rows ->
  match rows with
  | [] => clusters_from_reader ord hash text = Ok (CNum [])
  | first :: _ =>
      (length first = 1 /\ clusters_from_reader ord hash text = Panic) \/
      (length first <> 1 /\ (exists r, In r rows /\ length r <> length first) /\ clusters_from_reader ord hash text = Err EIo) \/
      (length first <> 1 /\ (forall r, In r rows -> length r = length first) /\ exists cl, clusters_from_reader ord hash text = Ok cl)
  end.
Proof. exact clusters_loads. Qed.
Print Assumptions C40_loading.

(** Finding: a name made of digits is not always printed as in the file, and whether it is
    depends on the rows before it. *)
Theorem C40_printed_as_in_the_file_refuted :
  cluster_in [("cat", "007"); ("dog", "+5")]%string "cat" = Some $"7" /\
  cluster_in [("cat", "007"); ("dog", "+5")]%string "dog" = Some $"5" /\
  cluster_in [("cat", "007"); ("dog", "pets")]%string "cat" = Some $"7" /\
  cluster_in [("dog", "pets"); ("cat", "007")]%string "cat" = Some $"007".
Proof. exact clusters_reprinted. Qed.
Print Assumptions C40_printed_as_in_the_file_refuted.

Example C40_case :
  is_table tab (tsv [("cat", "12"); ("dog", "pets"); ("cat", "34")]%string) [[$"cat"; $"12"]; [$"dog"; $"pets"]; [$"cat"; $"34"]] /\
  cluster_in [("cat", "12"); ("dog", "pets"); ("cat", "34")]%string "cat" = Some $"34" /\
  cluster_in [("cat", "12"); ("dog", "65536")]%string "dog" = Some $"65536" /\
  cluster_in [("cat", "12"); ("dog", "pets")]%string "bird" = None /\
  clusters_from_reader id_order demo_hash $"cat" = Panic.
Proof. exact clusters_case. Qed.

(** ** C41 *)
Theorem C41_stem_of_last_line : forall x text rows pre s ws post m w,
  is_table comma text rows -> rows = pre ++ (s :: ws) :: post ->
  row_lists (x_hash x) (s :: ws) (x_hash x (x_normalize x w)) ->
  (forall r, In r post -> ~ row_lists (x_hash x) r (x_hash x (x_normalize x w))) ->
  stemmer_from_reader (x_hash x) text = Ok m -> stem x m w = s.
Proof. exact stem_listed. Qed.
Print Assumptions C41_stem_of_last_line.

Theorem C41_stem_unlisted : forall x text rows m w, is_table comma text rows ->
  (forall r, In r rows -> ~ row_lists (x_hash x) r (x_hash x (x_normalize x w))) ->
  stemmer_from_reader (x_hash x) text = Ok m -> stem x m w = w.
Proof. exact stem_unlisted. Qed.
Print Assumptions C41_stem_unlisted.

Theorem C41_stems_load : forall hash text, exists m, stemmer_from_reader hash text = Ok m.
Proof. exact stem_total. Qed.
Print Assumptions C41_stems_load.

Theorem C41_gazetteer : forall hash text w,
  gazetteer_contains hash (gazetteer_from_reader hash text) w = true <->
  exists l, is_line text l /\ l <> [] /\ hash l = hash w.
Proof. exact gazetteer_iff. Qed.
Print Assumptions C41_gazetteer.

Theorem C41_stop_words : forall text w,
  In w (stop_words_from_reader text) <-> is_line text w /\ w <> [].
Proof. exact stop_words_iff. Qed.
Print Assumptions C41_stop_words.

(** Finding: a word of the stems file that is not in normalised form is not found. *)
Theorem C41_listed_words_found_refuted :
  exists m, stemmer_from_reader (x_hash demo_ext) $"do,Done,did" = Ok m /\
    stem demo_ext m $"did" = $"do" /\ stem demo_ext m $"DID" = $"do" /\ stem demo_ext m $"Done" = $"Done".
Proof. exact unnormalised_not_found. Qed.
Print Assumptions C41_listed_words_found_refuted.

Example C41_case :
  exists m, stemmer_from_reader (x_hash demo_ext) ($"be,is,are" ++ [13; 10; 10]%N ++ $"do,done,is") = Ok m /\
    stem demo_ext m $"is" = $"do" /\ stem demo_ext m $"are" = $"be" /\ stem demo_ext m $"fly" = $"fly" /\
    is_line ($"dog" ++ [13; 10]%N ++ $"cat") $"dog" /\
    gazetteer_contains demo_hash (gazetteer_from_reader demo_hash ($"dog" ++ [13; 10]%N ++ $"cat")) $"dog" = true /\
    gazetteer_contains demo_hash (gazetteer_from_reader demo_hash ($"dog" ++ [13; 10]%N ++ $"cat")) $"bird" = false.
Proof. exact stems_case. Qed.
