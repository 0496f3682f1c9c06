(** Small archives, for the examples of Properties_Zip. *)
From Coq Require Import String List NArith ZArith Bool Arith.
From Verif Require Import Base F32 M_Types M_Engine M_Prob M_Features M_Res M_Fs M_Json M_Load M_Inject M_Zip
  S_Base S_Engine S_Inject S_Load S_Zip P_Base P_Effects P_Load P_Zip P_Move P_Pack Demo Demo_Rules Demo_Prob Demo_Load.
Import ListNotations.
Local Open Scope string_scope.
Local Open Scope list_scope.
Local Open Scope nat_scope.

Definition works (o : op) : bool := true.

(** Trees from a list of their nodes. *)
Fixpoint nodes (l : list (list str * node)) : fs :=
  match l with
  | [] => fun _ => None
  | (p, n) :: r => fun q => if list_eqb str_eqb p q then Some n else nodes r q
  end.
Lemma nodes_in l q n : nodes l q = Some n -> In (q, n) l.
Proof.
  induction l as [|[p d] l IH]; simpl; [discriminate|].
  destruct (list_eqb str_eqb p q) eqn:E.
  - intros H. inv H. left. f_equal. revert E. clear. revert q. induction p as [|a p IH]; intros [|b q]; simpl;
      try discriminate; auto. intros H. apply andb_prop in H as [H1 H2]. apply str_eqb_spec in H1 as ->.
    f_equal. auto.
  - intros H. right. auto.
Qed.
Definition is_dir (o : option node) : bool := match o with Some Dir => true | _ => false end.
Definition tree_ok (l : list (list str * node)) : bool :=
  forallb (fun qn => match removelast (fst qn) with [] => true | q => is_dir (nodes l q) end) l.
Lemma nodes_tree l : tree_ok l = true -> tree_like (nodes l).
Proof.
  intros H q n N. destruct (nodes l (q ++ [n])) as [nd|] eqn:E; [|contradiction].
  apply nodes_in in E. unfold tree_ok in H. rewrite forallb_forall in H. specialize (H _ E).
  cbn [fst] in H. rewrite removelast_last in H. destruct q as [|y q]; [left; reflexivity|right].
  destruct (nodes l (y :: q)) as [[|]|]; try discriminate. reflexivity.
Qed.

(** The archive of an engine, with an entry for each directory. *)
Definition engine_nodes : list (list str * node) :=
  [(at_ "e", Dir); (at_ "e/nlu_engine.json", File $"E");
   (at_ "e/resources", Dir); (at_ "e/resources/en", Dir); (at_ "e/resources/en/metadata.json", File $"R");
   (at_ "e/resources/en/gazetteers", Dir); (at_ "e/resources/en/gazetteers/cities.txt", File $"rome");
   (at_ "e/resources/en/stop_words.txt", File ($"the" ++ [newline] ++ $"please"));
   (at_ "e/custom", Dir); (at_ "e/custom/metadata.json", File $"C"); (at_ "e/builtin", Dir);
   (at_ "e/rules", Dir); (at_ "e/rules/metadata.json", File $"D"); (at_ "e/rules/intent_parser.json", File $"DM");
   (at_ "e/stats", Dir); (at_ "e/stats/metadata.json", File $"P"); (at_ "e/stats/intent_parser.json", File $"PM");
   (at_ "e/stats/intent_classifier", Dir); (at_ "e/stats/intent_classifier/metadata.json", File $"L");
   (at_ "e/stats/intent_classifier/intent_classifier.json", File $"LM")].
Definition engine_tree : fs := nodes engine_nodes.

Fixpoint join_names (l : list str) : str :=
  match l with [] => [] | [n] => n | n :: r => n ++ [slash] ++ join_names r end.
Definition entry_of (qn : list str * node) : ZEntry :=
  match snd qn with
  | Dir => mkZE (join_names (fst qn) ++ [slash]) [] true true
  | File c => mkZE (join_names (fst qn)) c true true
  end.
Definition engine_zip : list ZEntry := map entry_of engine_nodes.
Definition temp_tree : fs := nodes [([$"tmp"], Dir)].
Definition temp_dir : list str := [$"tmp"; $"a1"].

Definition packed_entry (n : str) (g : fs) (d : list str) (e : ZEntry) : bool :=
  z_readable e && z_complete e &&
  match sanitized_name (z_name e) with
  | m :: r => str_eqb m n &&
      match g (d ++ r) with
      | Some Dir => is_dir_name (z_name e)
      | Some (File c) => negb (is_dir_name (z_name e)) && str_eqb c (z_data e)
      | None => false
      end
  | [] => false
  end.
Lemma packed_entry_ok n g d e : packed_entry n g d e = true ->
  z_readable e = true /\ z_complete e = true /\
  exists r, entry_names (z_name e) (n :: r) /\
    (for_directory (z_name e) -> g (d ++ r) = Some Dir) /\
    (~ for_directory (z_name e) -> g (d ++ r) = Some (File (z_data e))).
Proof.
  unfold packed_entry. intros H. apply andb_prop in H as [H H2]. apply andb_prop in H as [H0 H1].
  split; auto. split; auto. destruct (sanitized_name (z_name e)) as [|m r] eqn:E; [discriminate|].
  apply andb_prop in H2 as [Em H2]. apply str_eqb_spec in Em as ->. exists r. split; [apply names_of_iff; exact E|].
  rewrite dir_name_iff. destruct (g (d ++ r)) as [[c|]|]; [| |discriminate].
  - apply andb_prop in H2 as [H2 Hc]. apply str_eqb_spec in Hc as ->. destruct (is_dir_name (z_name e)); [discriminate|].
    split; [discriminate|auto].
  - rewrite H2. split; [auto|]. intros N. contradiction.
Qed.

Lemma engine_packed : packs $"e" engine_tree (resolve dir_e) engine_zip.
Proof.
  split.
  - intros e I. apply packed_entry_ok. revert e I. apply forallb_forall. vm_compute. reflexivity.
  - intros r N. destruct (engine_tree (resolve dir_e ++ r)) as [nd|] eqn:E; [|contradiction]. apply nodes_in in E.
    exists (entry_of (resolve dir_e ++ r, nd)), []. split; [apply in_map; exact E|]. apply names_of_iff. rewrite app_nil_r.
    assert (K : forallb (fun qn => list_eqb str_eqb (sanitized_name (z_name (entry_of qn))) (fst qn)) engine_nodes = true)
      by (vm_compute; reflexivity).
    rewrite forallb_forall in K. specialize (K _ E). apply names_eqb_spec in K. exact K.
Qed.

Lemma engine_plain names j s :
  json_at demo_loader engine_tree (dir_e ++ map CName names) j -> text_in s j -> plain s.
Proof.
  intros (c & F & J) T. apply nodes_in in F. apply demo_doc in J. apply (plain_texts_ok _ _ T).
  assert (N : c <> $"G").
  { intros ->. unfold engine_nodes in F. cbn [In] in F.
    repeat (destruct F as [F|F]; [discriminate (f_equal snd F)|]). contradiction. }
  clear F T.
  repeat (destruct J as [J|J];
          [pose proof (f_equal snd J) as K; apply (f_equal fst) in J; cbn [fst snd] in J, K; subst;
           first [vm_compute; reflexivity | exfalso; apply N; reflexivity]|]).
  contradiction.
Qed.
Lemma demo_relative : loaders_relative demo_loader.
Proof. intros f p f' p' _. auto. Qed.

Definition unzipped : Engine := get_ok no_engine (load_demo engine_tree).
Lemma unzipped_eq : load_demo engine_tree = Ok unzipped.
Proof. apply get_ok_eq. vm_compute. reflexivity. Qed.

(** ** Other archives *)
Definition file_entry (name data : string) : ZEntry := mkZE $name $data true true.
Definition hostile_zip : list ZEntry :=
  [file_entry "/engine/../../etc\passwd" "root"; file_entry "engine/./nlu_engine.json" "E";
   mkZE ($"engine/x.json" ++ [nul] ++ $"/..") $"x" true true; file_entry "engine\sub\" ""].
Definition dest_tree : fs := nodes [([$"tmp"], Dir); ([$"tmp"; $"a1"], Dir)].
Definition hostile_after : fs := apply_ops dest_tree (fst (extract works dest_tree (map CName temp_dir) (Some hostile_zip))).

(** Archives whose extraction panics: a file where a directory is needed, a directory
    where a file is needed, a file that has no name. *)
Definition panicking : list (list ZEntry) :=
  [[file_entry "a" "1"; file_entry "a/b" "2"]; [file_entry "x/" ""; file_entry "x" "2"]; [file_entry ".." "1"]].
Lemma panicking_archives : exists f d, directory f d /\ tree_like f /\ nothing_below f d /\
  forall l, In l panicking -> snd (extract works f (map CName d) (Some l)) = Panic.
Proof.
  exists dest_tree, temp_dir. split; [|split; [|split]].
  - intros a b E N. destruct a as [|n1 [|n2 [|n3 a]]]; [contradiction| | |]; inv E; try reflexivity.
  - apply nodes_tree. vm_compute. reflexivity.
  - intros r N. destruct r as [|n r]; [contradiction|]. reflexivity.
  - intros l I. repeat (destruct I as [<-|I]; [vm_compute; reflexivity|]). contradiction.
Qed.
Lemma dest_directory : directory dest_tree temp_dir.
Proof. intros a b E N. destruct a as [|n1 [|n2 [|n3 a]]]; [contradiction| | |]; inv E; try reflexivity. Qed.
Lemma dest_empty : nothing_below dest_tree temp_dir.
Proof. intros r N. destruct r as [|n r]; [contradiction|]. reflexivity. Qed.
Lemma temp_fresh r : temp_tree (temp_dir ++ r) = None.
Proof. reflexivity. Qed.
Lemma temp_parent : directory temp_tree (removelast temp_dir).
Proof. intros a b E N. destruct a as [|n1 [|n2 a]]; [contradiction| |]; inv E; try reflexivity. Qed.
