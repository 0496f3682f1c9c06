(** Specifications for the resource files: C40, C41. *)
From Coq Require Import String List NArith ZArith Bool Arith.
From Verif Require Import Base M_Types M_Res.
Import ListNotations.
Local Open Scope nat_scope.

(** [w] is a line of the text: it starts at the beginning or after a newline, has no
    newline, and ends at the end of the text or before a line end (LF or CR LF). *)
Definition is_line (text w : str) : Prop :=
  exists before after, text = before ++ w ++ after /\ ~ In newline w /\
    (before = [] \/ exists b, before = b ++ [newline]) /\
    ((after = [] /\ w <> []) \/
     ((exists a, after = newline :: a) /\ ~ (exists w', w = w' ++ [carriage_return])) \/
     (exists a, after = carriage_return :: newline :: a)).

Definition line_break (c : char) : Prop := c = newline \/ c = carriage_return.

(** The text consists of these lines, in order, none of them empty, separated by line
    breaks (any number of them, also at both ends). *)
Inductive broken_into : str -> list str -> Prop :=
| broken_nil : forall breaks, Forall line_break breaks -> broken_into breaks []
| broken_last : forall breaks l, Forall line_break breaks -> l <> [] -> Forall (fun c => ~ line_break c) l ->
    broken_into (breaks ++ l) [l]
| broken_cons : forall breaks l b text ls, Forall line_break breaks -> l <> [] ->
    Forall (fun c => ~ line_break c) l -> line_break b -> broken_into text ls ->
    broken_into (breaks ++ l ++ b :: text) (l :: ls).

(** The fields of a line. *)
Definition has_fields (delimiter : char) (line : str) (fields : list str) : Prop :=
  fields <> [] /\ join [delimiter] fields = line /\ Forall (fun f => ~ In delimiter f) fields.

(** The rows of a table. *)
Definition is_table (delimiter : char) (text : str) (rows : list (list str)) : Prop :=
  exists ls, broken_into text ls /\ Forall2 (has_fields delimiter) ls rows.

(** A row of a stems file lists the words that follow its stem. *)
Definition row_lists (hash : str -> Z) (row : list str) (h : Z) : Prop :=
  exists w, In w (skipn 1 row) /\ hash w = h.

(** A row of a clusters file: its word and its cluster. *)
Definition row_word (row : list str) : str := nth 0 row [].
Definition row_cluster (row : list str) : str := nth 1 row [].

(** A cluster name made of digits, possibly after a plus sign, of value below 65536. *)
Definition numeral (s : str) (v : N) : Prop :=
  exists digits, (s = digits \/ s = (43%N :: digits)) /\ digits <> [] /\
    Forall (fun c => (48 <= c <= 57)%N) digits /\ v = decimal_value digits /\ (v < 65536)%N.
Definition is_numeral (s : str) : Prop := exists v, numeral s v.

(** What is printed for a cluster, given the rows up to its own. *)
Definition printed (rows : list (list str)) (name shown : str) : Prop :=
  (Forall (fun r => is_numeral (row_cluster r)) rows /\ exists v, numeral name v /\ shown = show_N v) \/
  (Exists (fun r => ~ is_numeral (row_cluster r)) rows /\ shown = name).

(** The usual way to write a number: no plus sign, no leading zero. *)
Definition canonical_numeral (s : str) : Prop :=
  Forall (fun c => (48 <= c <= 57)%N) s /\ (s = [48%N] \/ exists c r, s = c :: r /\ c <> 48%N).
