(** Paths and file trees: the parts of [std::path] and [std::fs] (external) that the code
    relies on. *)
From Coq Require Import String List NArith Bool Arith.
From Verif Require Import Base M_Types M_Res.
Import ListNotations.
Local Open Scope nat_scope.

Definition slash : char := 47%N.
(** A character, no counterpart in the code. *)
Definition dot : char := 46%N.

(** [std::path::Component]; a path is absolute here: its components below the root. *)
Inductive comp := CName (s : str) | CUp.
(** [std::path::PathBuf] (external). *)
Definition path := list comp.

(** [Path::components]: empty names and "." are skipped.  External. *)
Definition comp_of (s : str) : list comp :=
  if str_eqb s [] then [] else if str_eqb s [dot] then []
  else if str_eqb s [dot; dot] then [CUp] else [CName s].
(** [Path::components] (external), used in src/utils.rs:88. *)
Definition components (s : str) : path := flat_map comp_of (split_on (fun c => (c =? slash)%N) s).

(** [Path::join]: an absolute second path replaces the first.  External. *)
Definition is_absolute (s : str) : bool := match s with c :: _ => (c =? slash)%N | [] => false end.
(** [Path::join] (external), used in src/nlu_engine.rs:36-103. *)
Definition pjoin (p : path) (s : str) : path := if is_absolute s then components s else p ++ components s.

(** [Path::file_stem] of a name: up to the last dot, unless that is at the beginning.
    External; see [with_extension]. *)
Fixpoint upto_last_dot (s : str) : option str :=
  match s with
  | [] => None
  | c :: r => match upto_last_dot r with
              | Some t => Some (c :: t)
              | None => if (c =? dot)%N then Some [] else None
              end
  end.
(** External; see [with_extension]. *)
Definition file_stem (s : str) : str :=
  match upto_last_dot s with Some (c :: t) => c :: t | _ => s end.

(** [Path::with_extension], for a non empty extension.  External; used in
    src/resources/loading.rs:85, 108, 134 and 159. *)
Fixpoint with_extension (p : path) (ext : str) : path :=
  match p with
  | [] => []
  | [CName s] => [CName (file_stem s ++ [dot] ++ ext)]
  | c :: r => c :: with_extension r ext
  end.

(** The names from the root to what a path designates.  There are no symbolic links here,
    so ".." is the directory before.  External. *)
Definition resolve_comp (l : list str) (c : comp) : list str :=
  match c with CName s => l ++ [s] | CUp => removelast l end.
(** What the operating system (external) does with a path. *)
Definition resolve (p : path) : list str := fold_left resolve_comp p [].

(** A file tree.  Contents are texts: a file that is not UTF-8 cannot be read as json or
    as lines, which is like a file that is absent.  External. *)
Inductive node := File (content : str) | Dir.
(** The file system (external). *)
Definition fs := list str -> option node.

(** [File::open] and reading to the end.  External; used in src/nlu_engine.rs:55-78. *)
Definition read_file (f : fs) (p : path) : outcome str :=
  match f (resolve p) with Some (File c) => Ok c | _ => Err EIo end.
