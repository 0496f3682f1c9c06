(** Specification vocabulary for the extraction of archives: C51. *)
From Coq Require Import String List NArith Bool.
From Verif Require Import Base M_Types M_Fs M_Inject M_Zip S_Inject.
Import ListNotations.
Local Open Scope nat_scope.

(** ** Names of entries *)
Definition separator (c : char) : Prop := c = slash \/ c = backslash.
Inductive pieces : str -> list str -> Prop :=
| pieces_one p : (forall c, In c p -> ~ separator c) -> pieces p [p]
| pieces_more p c r l : (forall c, In c p -> ~ separator c) -> separator c -> pieces r l -> pieces (p ++ c :: r) (p :: l).
Definition ordinary (n : str) : bool := negb (str_eqb n []) && negb (str_eqb n $".") && negb (str_eqb n $"..").
(** What comes before the first NUL. *)
Definition visible (raw s : str) : Prop :=
  ~ In nul s /\ (raw = s \/ exists r, raw = s ++ nul :: r).
(** The place of an entry, below the destination. *)
Definition entry_names (raw : str) (names : list str) : Prop :=
  exists s l, visible raw s /\ pieces s l /\ names = filter ordinary l.
Definition for_directory (raw : str) : Prop := exists s c, raw = s ++ [c] /\ separator c.

(** ** File trees *)

(** The directory [d] and those above it exist. *)
Definition directory (f : fs) (d : list str) : Prop := forall a b, d = a ++ b -> a <> [] -> f a = Some Dir.
Definition strictly_below (d q : list str) : Prop := exists r, r <> [] /\ q = d ++ r.
(** Only directories have something below them. *)
Definition tree_like (f : fs) : Prop := forall q n, f (q ++ [n]) <> None -> q = [] \/ f q = Some Dir.
Definition is_prefix (a b : list str) : Prop := exists c, b = a ++ c.

(** ** Archives that can be extracted *)
(** [e] is for a file, and [e'] needs a directory at the same place. *)
Definition clash (e e' : ZEntry) : Prop :=
  exists names rest, ~ for_directory (z_name e) /\ entry_names (z_name e) names /\
    entry_names (z_name e') (names ++ rest) /\ (rest <> [] \/ for_directory (z_name e')).
Definition consistent (l : list ZEntry) : Prop :=
  (forall e, In e l -> z_readable e = true) /\
  (forall e, In e l -> ~ for_directory (z_name e) -> z_complete e = true /\ ~ entry_names (z_name e) []) /\
  (forall e e', In e l -> In e' l -> ~ clash e e').
Definition nothing_below (f : fs) (d : list str) : Prop := forall r, r <> [] -> f (d ++ r) = None.

(** [l] is an archive of the directory [d] of the tree [g], under the name [n]: an entry
    for each file and each directory (unless something in it has an entry), with the
    contents of the files. *)
Definition packs (n : str) (g : fs) (d : list str) (l : list ZEntry) : Prop :=
  (forall e, In e l -> z_readable e = true /\ z_complete e = true /\
     exists r, entry_names (z_name e) (n :: r) /\
       (for_directory (z_name e) -> g (d ++ r) = Some Dir) /\
       (~ for_directory (z_name e) -> g (d ++ r) = Some (File (z_data e)))) /\
  (forall r, g (d ++ r) <> None -> exists e r', In e l /\ entry_names (z_name e) (n :: r ++ r')).
