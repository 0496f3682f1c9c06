(** Model of the extraction of an engine archive: src/utils.rs, src/nlu_engine.rs. *)
From Coq Require Import String List NArith ZArith Bool Arith.
From Verif Require Import Base F32 M_Types M_Engine M_Feat M_Prob M_Features M_Res M_Fs M_Json M_Load M_Inject.
Import ListNotations.
Local Open Scope nat_scope.

(** An entry of an archive, as the crate zip (external) gives it: its name, what reading it
    yields, and whether that ends without error (wrong checksum, wrong deflate data).
    [z_readable]: [ZipArchive::by_index] accepts the entry. *)
Record ZEntry := mkZE { z_name : str; z_data : str; z_complete : bool; z_readable : bool }.

(** A character, no counterpart in the code. *)
Definition backslash : char := 92%N.
(** A character, no counterpart in the code. *)
Definition nul : char := 0%N.

(** [ZipFile::sanitized_name] of the crate zip 0.5 (external), on Unix: up to the first NUL,
    with backslashes as slashes, only the normal components. *)
Fixpoint before_nul (s : str) : str :=
  match s with [] => [] | c :: r => if (c =? nul)%N then [] else c :: before_nul r end.
(** [ZipFile::sanitized_name] (external), used in utils.rs:72 and 86. *)
Definition sanitized_name (s : str) : list str :=
  flat_map (fun c => match c with CName n => [n] | CUp => [] end)
           (components (map (fun c => if (c =? backslash)%N then slash else c) (before_nul s))).

(** utils.rs:74: entries for directories. *)
Definition is_dir_name (s : str) : bool :=
  match rev s with c :: _ => (c =? slash)%N || (c =? backslash)%N | [] => false end.

Section Zip.
  (** Which system calls succeed, besides the conditions below. *)
  Context (io : op -> bool).

  (** The root is a directory. *)
  Definition node_at (f : fs) (q : list str) : option node := match q with [] => Some Dir | _ => f q end.

  (** [fs::create_dir_all] (external): the missing directories, from the root.
      [done]: the names already handled. *)
  Fixpoint create_dirs (f : fs) (done rest : list str) : effect unit :=
    match rest with
    | [] => ([], Ok tt)
    | n :: r =>
        let q := done ++ [n] in
        match f q with
        | Some Dir => create_dirs f q r
        | Some (File _) => ([], Err EIo)
        | None =>
            if io (OMkdir q) then
              let (t, res) := create_dirs (apply_op f (OMkdir q)) q r in (OMkdir q :: t, res)
            else ([], Err EIo)
        end
    end.

  (** [fs::File::create] (external) and [unwrap], utils.rs:82. *)
  Definition create_file (f : fs) (q : list str) : effect unit :=
    match node_at f (removelast q), node_at f q with
    | Some Dir, Some Dir => ([], Panic)
    | Some Dir, _ => if io (OWrite q []) then ([OWrite q []], Ok tt) else ([], Panic)
    | _, _ => ([], Panic)
    end.

  (** [io::copy], utils.rs:83. *)
  Definition copy (q : list str) (e : ZEntry) : effect unit :=
    if io (OWrite q (z_data e)) then ([OWrite q (z_data e)], if z_complete e then Ok tt else Err EIo)
    else ([], Err EIo).

  (** [?] after a call that changes files, utils.rs:70-85. *)
  Definition seq {A} (f : fs) (a : effect unit) (k : fs -> effect A) : effect A :=
    match snd a with
    | Ok _ => let (t, r) := k (apply_ops f (fst a)) in (fst a ++ t, r)
    | Err e => (fst a, Err e)
    | Panic => (fst a, Panic)
    end.

  (** utils.rs:71-84 for one entry.  [Path::parent] of the destination itself is what comes
      before its last component. *)
  Definition extract_entry (f : fs) (dest : path) (e : ZEntry) : effect unit :=
    if z_readable e then
      let out := dest ++ map CName (sanitized_name (z_name e)) in
      if is_dir_name (z_name e) then create_dirs f [] (resolve out)
      else
        seq f (match out with
               | [] => ([], Ok tt)
               | _ => match node_at f (resolve (removelast out)) with
                      | Some _ => ([], Ok tt)
                      | None => create_dirs f [] (resolve (removelast out))
                      end
               end)
            (fun f => seq f (create_file f (resolve out)) (fun _ => copy (resolve out) e))
    else ([], Err EIo).

  (** utils.rs:70-85 *)
  Fixpoint extract_all (f : fs) (dest : path) (l : list ZEntry) : effect unit :=
    match l with
    | [] => ([], Ok tt)
    | e :: r => seq f (extract_entry f dest e) (fun f => extract_all f dest r)
    end.

  (** utils.rs:86-101 *)
  Definition engine_dir (dest : path) (l : list ZEntry) : outcome path :=
    match l with
    | [] => Err EIo
    | e :: _ => match sanitized_name (z_name e) with
                | n :: _ => Ok (pjoin dest n)
                | [] => Err EOther
                end
    end.

  (** utils.rs:64-102.  The archive is [None] when [ZipArchive::new] fails. *)
  Definition extract (f : fs) (dest : path) (archive : option (list ZEntry)) : effect path :=
    match archive with
    | None => ([], Err EIo)
    | Some l => seq f (extract_all f dest l) (fun _ => ([], engine_dir dest l))
    end.

  (** nlu_engine.rs:125-130.  [temp]: the directory [tempfile] creates, if it can; it is
      removed at the end. *)
  Definition from_zip (x : Ext) (shape : str -> str) (ngrams : list str -> nat -> list str) (mx : Math) (L : Loader)
      (fo : path -> orders) (uo : path -> nat -> HashOrder)
      (f : fs) (temp : option path) (archive : option (list ZEntry)) : outcome Engine :=
    let* dest := ok_or EIo temp in
    let f1 := apply_op f (OMkdir (resolve dest)) in
    let (t, r) := extract f1 dest archive in
    let* dir := r in
    from_path x shape ngrams mx L fo uo (apply_ops f1 t) dir.
End Zip.
