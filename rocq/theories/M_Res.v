(** Model of src/resources/stemmer.rs, gazetteer.rs, word_clusterer.rs and of the line
    based files of src/resources/loading.rs. *)
From Coq Require Import String List NArith ZArith Bool Arith.
From Coq Require DecimalString.
From Verif Require Import Base M_Types.
Import ListNotations.
Local Open Scope nat_scope.

(** A character, no counterpart in the code. *)
Definition newline : char := 10%N.
(** A character, no counterpart in the code. *)
Definition carriage_return : char := 13%N.
(** A character, no counterpart in the code. *)
Definition comma : char := 44%N.
(** A character, no counterpart in the code. *)
Definition tab : char := 9%N.

(** ** Reading files: a file is valid UTF-8 text here; other contents are errors. *)

(** A line without the carriage return it may end with.  [BufRead::lines] (external). *)
Fixpoint strip_cr (s : str) : str :=
  match s with
  | [] => []
  | [c] => if (c =? carriage_return)%N then [] else [c]
  | c :: r => c :: strip_cr r
  end.

(** [BufRead::lines] (std): lines end with a newline, which is removed together with a
    carriage return before it; the last line need not end with a newline. [current] are
    the characters of the line read so far. *)
Fixpoint lines_from (current : str) (s : str) : list str :=
  match s with
  | [] => match current with [] => [] | _ => [current] end
  | c :: r => if (c =? newline)%N then strip_cr current :: lines_from [] r
              else lines_from (current ++ [c]) r
  end.
(** [BufRead::lines] (external), used in loading.rs:165 and gazetteer.rs:16-27. *)
Definition lines (s : str) : list str := lines_from [] s.

(** [slice::split].  External. *)
Fixpoint split_on (sep : char -> bool) (s : str) : list str :=
  match s with
  | [] => [[]]
  | c :: r => if sep c then [] :: split_on sep r
              else match split_on sep r with
                   | [] => [[c]]
                   | f :: fs => (c :: f) :: fs
                   end
  end.

(** The crate csv (external), with the options of stemmer.rs:18-23 and
    word_clusterer.rs:21-25: no quoting, no header; records end at carriage returns or
    newlines, empty lines are skipped. *)
Definition csv_lines (s : str) : list str :=
  filter (fun l => match l with [] => false | _ => true end)
         (split_on (fun c => (c =? newline)%N || (c =? carriage_return)%N) s).
(** The records of the crate csv (external), stemmer.rs:18-25 and word_clusterer.rs:21-31. *)
Definition csv_records (delimiter : char) (s : str) : list (list str) :=
  map (split_on (fun c => (c =? delimiter)%N)) (csv_lines s).

(** ** stemmer.rs *)

(** stemmer.rs:25-31: the words of one record. *)
Definition stems_of_record (hash : str -> Z) (m : list (Z * str)) (elements : list str) : outcome (list (Z * str)) :=
  let* stem := index elements 0 in
  Ok (fold_left (fun m value => hinsert Z.eqb (hash value) stem m) (skipn 1 elements) m).

(** stemmer.rs:16-34 *)
Definition stemmer_from_reader (hash : str -> Z) (file : str) : outcome (list (Z * str)) :=
  fold_left (fun acc elements => let* m := acc in stems_of_record hash m elements)
            (csv_records comma file) (Ok []).

(** stemmer.rs:48-55 *)
Definition stem (x : Ext) (m : list (Z * str)) (value : str) : str :=
  match hget Z.eqb (x_hash x (x_normalize x value)) m with
  | Some s => s
  | None => value
  end.

(** ** gazetteer.rs *)

(** gazetteer.rs:16-27 *)
Definition gazetteer_from_reader (hash : str -> Z) (file : str) : list Z :=
  fold_left (fun s word => match word with
                           | [] => s
                           | _ => if memb Z.eqb (hash word) s then s else s ++ [hash word]
                           end) (lines file) [].

(** gazetteer.rs:41-45 *)
Definition gazetteer_contains (hash : str -> Z) (s : list Z) (value : str) : bool := memb Z.eqb (hash value) s.

(** loading.rs:163-172 *)
Definition stop_words_from_reader (file : str) : list str :=
  fold_left (fun s word => match word with
                           | [] => s
                           | _ => if smem word s then s else s ++ [word]
                           end) (lines file) [].

(** ** word_clusterer.rs *)

(** [u16::from_str] (std): an optional plus sign, at least one digit, at most 65535. *)
Definition is_digit (c : char) : bool := ((48 <=? c) && (c <=? 57))%N.
(** Helper of [u16_from_str]. *)
Definition decimal_value (s : str) : N := fold_left (fun n c => (n * 10 + (c - 48))%N) s 0%N.
(** [u16::from_str] (external), used in word_clusterer.rs:37. *)
Definition u16_from_str (s : str) : option N :=
  let digits := match s with c :: r => if (c =? 43)%N then r else s | [] => [] end in
  match digits with
  | [] => None
  | _ => if forallb is_digit digits && (decimal_value digits <? 65536)%N
         then Some (decimal_value digits) else None
  end.
(** [format!("{}", v)].  word_clusterer.rs:45 and 70. *)
Definition show_N (n : N) : str := str_of_string (DecimalString.NilZero.string_of_uint (N.to_uint n)).

(** word_clusterer.rs:13-17 *)
Inductive Clusters := CNum (m : list (Z * N)) | CStr (m : list (Z * str)).

(** word_clusterer.rs:32-55, one record; [width] is the number of fields of the first
    record: the reader refuses records of another width.  [ord]: order of the map that is
    moved. *)
Definition clusters_of_record (ord : HashOrder) (hash : str -> Z) (width : nat) (cl : Clusters) (elements : list str)
    : outcome Clusters :=
  if negb (length elements =? width) then Err EIo
  else
    let* word := index elements 0 in
    let* cluster := index elements 1 in
    match cl with
    | CNum m =>
        Ok (match u16_from_str cluster with
            | Some v => CNum (hinsert Z.eqb (hash word) v m)
            | None =>
                CStr (hinsert Z.eqb (hash word) cluster
                        (fold_left (fun s kv => hinsert Z.eqb (fst kv) (show_N (snd kv)) s) (reorder ord m) []))
            end)
    | CStr m => Ok (CStr (hinsert Z.eqb (hash word) cluster m))
    end.

(** word_clusterer.rs:20-63 *)
Definition clusters_of_records (ord : HashOrder) (hash : str -> Z) (records : list (list str)) : outcome Clusters :=
  let width := match records with r :: _ => length r | [] => 0 end in
  fold_left (fun acc elements => let* cl := acc in clusters_of_record ord hash width cl elements)
            records (Ok (CNum [])).
(** word_clusterer.rs:20-63 *)
Definition clusters_from_reader (ord : HashOrder) (hash : str -> Z) (file : str) : outcome Clusters :=
  clusters_of_records ord hash (csv_records tab file).

(** word_clusterer.rs:67-73 *)
Definition get_cluster (hash : str -> Z) (cl : Clusters) (word : str) : option str :=
  match cl with
  | CNum m => option_map show_N (hget Z.eqb (hash word) m)
  | CStr m => hget Z.eqb (hash word) m
  end.
