(** Properties of the extraction of archives, and of engines in another directory: C51,
    C61.  [Print Assumptions] beneath each theorem lists what it rests on.
    [extract io f dest archive] is [extract_nlu_engine_zip_archive] on the tree [f]: the
    changes it makes, in order, and its result; [io] tells which system calls succeed. *)
From Coq Require Import String List NArith ZArith Bool Arith.
From Verif Require Import Base F32 M_Types M_Engine M_Prob M_Features M_Res M_Fs M_Json M_Load M_Inject M_Zip
  S_Base S_Inject S_Load S_Zip P_Zip P_Move P_Pack Demo Demo_Rules Demo_Prob Demo_Load Demo_Zip.
Import ListNotations.
Local Open Scope string_scope.
Local Open Scope list_scope.
Local Open Scope nat_scope.

(** ** C51 *)

(** Whatever the archive and whether extraction succeeds, fails or panics, what it touches is
    strictly below the destination, and it removes nothing. *)
Theorem C51_stays_below : forall io f d a,
  directory f d -> forall o, In o (fst (extract io f (map CName d) a)) ->
  strictly_below d (op_path o) /\ forall p, o <> ORemove p.
Proof. exact stays_below. Qed.
Print Assumptions C51_stays_below.

(** The same for the trees one can observe, at any moment of the extraction. *)
Theorem C51_rest_unchanged : forall io f d a t1 t2 q,
  directory f d -> fst (extract io f (map CName d) a) = t1 ++ t2 -> ~ strictly_below d q ->
  apply_ops f t1 q = f q.
Proof. exact zip_rest_unchanged. Qed.
Print Assumptions C51_rest_unchanged.

(** At any moment, what is different is there for an entry: a directory on the way to it, or
    its file. *)
Theorem C51_only_entries : forall io f d l t1 t2 q,
  directory f d -> fst (extract io f (map CName d) (Some l)) = t1 ++ t2 -> apply_ops f t1 q <> f q ->
  exists e names r, In e l /\ entry_names (z_name e) names /\ q = d ++ r /\
    ((apply_ops f t1 q = Some Dir /\ f q = None /\ is_prefix r names /\ (r = names -> for_directory (z_name e))) \/
     (r = names /\ ~ for_directory (z_name e) /\ exists c, apply_ops f t1 q = Some (File c))).
Proof. exact only_entries. Qed.
Print Assumptions C51_only_entries.

(** The directory returned is named by the beginning of the first entry. *)
Theorem C51_returned_directory : forall io f d a p t,
  extract io f (map CName d) a = (t, Ok p) ->
  exists e rest n names, a = Some (e :: rest) /\ entry_names (z_name e) (n :: names) /\ p = map CName d ++ [CName n].
Proof. exact returned_dir. Qed.
Print Assumptions C51_returned_directory.

(** After a success, everything in the archive is there; the last entry for a name counts. *)
Theorem C51_extracted : forall io f d l p t,
  directory f d -> extract io f (map CName d) (Some l) = (t, Ok p) ->
  (forall e, In e l -> z_readable e = true /\ (~ for_directory (z_name e) -> z_complete e = true)) /\
  (forall e names, In e l -> entry_names (z_name e) names -> for_directory (z_name e) ->
     directory (apply_ops f t) (d ++ names)) /\
  (forall pre e post names, l = pre ++ e :: post -> entry_names (z_name e) names -> ~ for_directory (z_name e) ->
     (forall e', In e' post -> ~ entry_names (z_name e') names) ->
     apply_ops f t (d ++ names) = Some (File (z_data e))).
Proof. exact extracted. Qed.
Print Assumptions C51_extracted.

(** Extraction into an empty directory succeeds exactly for the consistent archives whose
    first entry has a name. *)
Theorem C51_succeeds : forall io f d l,
  directory f d -> tree_like f -> nothing_below f d -> (forall o, io o = true) ->
  ((exists p, snd (extract io f (map CName d) (Some l)) = Ok p) <->
   consistent l /\ exists e rest, l = e :: rest /\ ~ entry_names (z_name e) []).
Proof. exact succeeds_iff. Qed.
Print Assumptions C51_succeeds.

(** Otherwise it is an error, or a panic, and a panic is always due to a file entry that has
    no name or that meets a directory, or a file in place of its directory. *)
Theorem C51_panics_only : forall io f d l,
  directory f d -> nothing_below f d -> (forall o, io o = true) ->
  snd (extract io f (map CName d) (Some l)) = Panic ->
  exists e, In e l /\ ~ for_directory (z_name e) /\
    (entry_names (z_name e) [] \/ exists e', In e' l /\ (clash e e' \/ clash e' e)).
Proof. exact panics_only. Qed.
Print Assumptions C51_panics_only.

(** Finding: archives on which the program panics instead of returning an error. *)
Theorem C51_never_panics_refuted : exists f d,
  directory f d /\ tree_like f /\ nothing_below f d /\
  forall l, In l panicking -> snd (extract works f (map CName d) (Some l)) = Panic.
Proof. exact panicking_archives. Qed.
Print Assumptions C51_never_panics_refuted.

Example C51_case :
  directory dest_tree temp_dir /\ tree_like dest_tree /\ nothing_below dest_tree temp_dir /\
  snd (extract works dest_tree (map CName temp_dir) (Some hostile_zip)) = Ok (components $"tmp/a1/engine") /\
  hostile_after (at_ "tmp/a1/engine/etc/passwd") = Some (File $"root") /\
  hostile_after (at_ "tmp/a1/engine/nlu_engine.json") = Some (File $"E") /\
  hostile_after (at_ "tmp/a1/engine/x.json") = Some (File $"x") /\
  hostile_after (at_ "tmp/a1/engine/sub") = Some Dir /\
  hostile_after (at_ "etc/passwd") = None.
Proof.
  split; [exact dest_directory|]. split; [apply nodes_tree; vm_compute; reflexivity|]. split; [exact dest_empty|].
  repeat split; vm_compute; reflexivity.
Qed.

(** ** C61 *)

(** The same files in another directory, of the same or another machine, give the same
    engine. *)
Theorem C61_moved : forall x shape ngrams mx L fo fo' uo uo' f f' p p',
  same_contents f (resolve p) f' (resolve p') -> loaders_relative L ->
  (forall c, fo (p ++ map CName c) = fo' (p' ++ map CName c)) ->
  (forall c, uo (p ++ map CName c) = uo' (p' ++ map CName c)) ->
  (forall names j s, json_at L f (p ++ map CName names) j -> text_in s j -> plain s) ->
  (forall l, plain (ld_lang_name L l)) ->
  from_path x shape ngrams mx L fo uo f p = from_path x shape ngrams mx L fo' uo' f' p'.
Proof. exact from_path_moved. Qed.
Print Assumptions C61_moved.

(** An archive of a directory gives what the directory gives. *)
Theorem C61_archived : forall io, (forall o, io o = true) ->
  forall x shape ngrams mx L fo fo' uo uo' f T n g p l,
  T <> [] -> directory f (removelast T) -> tree_like f -> (forall r, f (T ++ r) = None) ->
  tree_like g -> g (resolve p) = Some Dir -> packs n g (resolve p) l ->
  loaders_relative L ->
  (forall c, fo (p ++ map CName c) = fo' (map CName (T ++ n :: c))) ->
  (forall c, uo (p ++ map CName c) = uo' (map CName (T ++ n :: c))) ->
  (forall names j s, json_at L g (p ++ map CName names) j -> text_in s j -> plain s) ->
  (forall l, plain (ld_lang_name L l)) ->
  from_zip io x shape ngrams mx L fo' uo' f (Some (map CName T)) (Some l) = from_path x shape ngrams mx L fo uo g p.
Proof. exact from_zip_packed. Qed.
Print Assumptions C61_archived.

Example C61_case :
  packs $"e" engine_tree (resolve dir_e) engine_zip /\ loaders_relative demo_loader /\
  load_demo engine_tree = Ok unzipped /\ length (en_parsers unzipped) = 2 /\
  from_zip works demo_ext (fun s => s) no_ngrams demo_math demo_loader (fun _ _ => id_order) (fun _ _ => id_order) temp_tree (Some (map CName temp_dir))
    (Some engine_zip) = Ok unzipped.
Proof.
  split; [exact engine_packed|]. split; [exact demo_relative|]. split; [exact unzipped_eq|].
  split; [vm_compute; reflexivity|]. rewrite <- unzipped_eq. unfold load_demo.
  apply C61_archived with (n := $"e"); try reflexivity.
  - discriminate.
  - exact temp_parent.
  - apply nodes_tree. vm_compute. reflexivity.
  - apply nodes_tree. vm_compute. reflexivity.
  - exact engine_packed.
  - exact demo_relative.
  - exact engine_plain.
  - exact demo_lang_plain.
Qed.
