(** A host that uses the engine of the examples. *)
From Coq Require Import String List NArith ZArith Bool Arith Lia.
From Verif Require Import Base F32 M_Types M_Engine M_Det M_Lookup M_Feat M_Prob M_Crf M_Features M_Filler
  M_Cache M_Res M_Fs M_Json M_Load M_Inject M_Zip M_Ffi S_Base S_Prob S_Res S_Filler S_Load S_Zip S_Ffi S_Safe S_Host
  P_Base P_Effects P_Zip P_Move P_Pack P_Engine P_Load P_Res P_Encode P_Ffi Demo Demo_Rules Demo_Prob Demo_Crf Demo_Load Demo_Home Demo_Zip Demo_Safe Demo_SafeLoad Demo_Ffi.
Import ListNotations.
Local Open Scope string_scope.
Local Open Scope list_scope.
Local Open Scope nat_scope.

(** The same files with their directories, and an archive of them. *)
Definition with_directories (l : list (list str * str)) : list (list str * node) :=
  flat_map (fun qc => map (fun k => (firstn k (fst qc), Dir)) (List.seq 1 (length (fst qc) - 1)) ++ [(fst qc, File (snd qc))]) l.
Definition home_nodes : list (list str * node) := with_directories home_files.
Definition home_tree : fs := nodes home_nodes.
Definition home_zip : list ZEntry := map entry_of home_nodes.
Lemma home_packed : packs $"e" home_tree (resolve dir_e) home_zip.
Proof.
  split.
  - intros e I. apply packed_entry_ok. revert e I. apply forallb_forall. vm_compute. reflexivity.
  - intros r N. destruct (home_tree (resolve dir_e ++ r)) as [nd|] eqn:E; [|contradiction]. apply nodes_in in E.
    exists (entry_of (resolve dir_e ++ r, nd)), []. split; [apply in_map; exact E|]. apply names_of_iff. rewrite app_nil_r.
    assert (K : forallb (fun qn => list_eqb str_eqb (sanitized_name (z_name (entry_of qn))) (fst qn)) home_nodes = true)
      by (vm_compute; reflexivity).
    rewrite forallb_forall in K. specialize (K _ E). apply names_eqb_spec in K. exact K.
Qed.
Lemma home_relative : loaders_relative home_loader.
Proof.
  intros f p f' p' S. repeat split; cbn [home_loader ld_tagger]. specialize (S []). rewrite !app_nil_r in S. rewrite S. reflexivity.
Qed.
Lemma home_plain_texts names j s :
  json_at home_loader home_tree (dir_e ++ map CName names) j -> text_in s j -> plain s.
Proof.
  intros (c & _ & J) T. apply (plain_texts_ok _ _ T).
  assert (K : forallb (fun d : str * json => plain_texts (snd d)) home_documents = true) by (vm_compute; reflexivity).
  rewrite forallb_forall in K. apply (K (c, j)). apply (hget_In _ str_eqb_spec). exact J.
Qed.
Lemma home_lang l : plain (ld_lang_name home_loader l).
Proof. repeat split; try discriminate. vm_compute. intuition discriminate. Qed.
Definition load_archive : outcome Engine :=
  from_zip works demo_ext demo_shape no_ngrams demo_math home_loader (fun _ _ => id_order) (fun _ _ => id_order)
    temp_tree (Some (map CName temp_dir)) (Some home_zip).
Definition zip_bytes : list byte := map N.of_nat [80; 75; 3; 4].

Definition home_env (a : nat) : Env :=
  mkEnv (fun s => from_path demo_ext demo_shape no_ngrams demo_math home_loader (fun _ _ => id_order) (fun _ _ => id_order) home (components s))
        (fun z => if list_eqb N.eqb z zip_bytes then load_archive else Err EIo) a id_order id_order.
Definition host : list (Env * call) :=
  [(home_env 1, CreateFromDir (c_str "e"));
   (home_env 0, RunParse (Some 1) (CBytes (utf8_encode spoken)) LNull LNull false);
   (home_env 0, RunParse (Some 1) not_utf8 LNull LNull false);
   (home_env 0, RunGetSlots (Some 1) (CBytes (utf8_encode spoken)) (c_str "lightOn") true);
   (home_env 0, RunGetIntents None (CBytes (utf8_encode spoken)) true);
   (home_env 2, CreateFromDir (c_str "nowhere"));
   (home_env 3, CreateFromZip (Some zip_bytes));
   (home_env 0, RunParse (Some 3) (CBytes (utf8_encode spoken)) LNull LNull false);
   (home_env 0, CreateFromZip (Some []));
   (home_env 0, DestroyClient (Some 1))].

Lemma home_docs_plain : forallb (fun j => holds check_table (d_classifier home_f32 j) &&
  holds (fun m => match rm_clusters m, rm_stems m with None, None => true | _, _ => false end) (d_resources j)) (map snd home_documents) = true.
Proof. vm_compute. reflexivity. Qed.
Lemma home_doc_in c j : ld_json home_loader c = Some j -> In j (map snd home_documents).
Proof. intros H. apply home_doc in H. apply in_map_iff. exists (c, j). auto. Qed.
Lemma home_plain f m j p : json_at home_loader f p j -> d_resources j = Ok m -> rm_clusters m = None /\ rm_stems m = None.
Proof.
  intros (c & _ & J) D. apply home_doc_in in J. pose proof home_docs_plain as K. rewrite forallb_forall in K. apply K in J.
  apply andb_prop in J as [_ J]. rewrite D in J. cbn [holds] in J. destruct (rm_clusters m), (rm_stems m); try discriminate. auto.
Qed.
Lemma home_crash_free f : crash_free_files home_loader f.
Proof.
  split.
  - intros p j m i c (t & _ & J) D. apply home_doc_in in J. pose proof home_docs_plain as K. rewrite forallb_forall in K.
    apply K in J. apply andb_prop in J as [J _]. change (ld_f32 home_loader) with home_f32 in D. rewrite D in J.
    exact (table_checked m i c J).
  - intros dir j m names n text first rest J D E. destruct (home_plain _ _ _ _ J D) as [N _]. congruence.
Qed.
Lemma home_calm f : loaders_calm home_loader f.
Proof.
  split; [|split; [|split]]; intros p; cbn [ld_regex ld_builtin ld_gazetteer ld_tagger home_loader].
  - unfold demo_compile. destruct (sget p demo_patterns); discriminate.
  - discriminate.
  - discriminate.
  - destruct (f (resolve p)) as [[]|]; discriminate.
Qed.
Lemma archive_loads : load_archive =
  from_path demo_ext demo_shape no_ngrams demo_math home_loader (fun _ _ => id_order) (fun _ _ => id_order) home_tree dir_e.
Proof.
  unfold load_archive. apply (from_zip_packed works) with (n := $"e"); try reflexivity.
  - discriminate.
  - exact temp_parent.
  - apply nodes_tree. vm_compute. reflexivity.
  - apply nodes_tree. vm_compute. reflexivity.
  - exact home_packed.
  - exact home_relative.
  - exact home_plain_texts.
  - exact home_lang.
Qed.
Lemma home_env_sound a : sound_env demo_ext demo_shape no_ngrams demo_math home_loader (home_env a).
Proof.
  assert (S : forall f q, from_sound_files demo_ext demo_shape no_ngrams demo_math home_loader
    (from_path demo_ext demo_shape no_ngrams demo_math home_loader (fun _ _ => id_order) (fun _ _ => id_order) f q)).
  { intros f q. right. exists (fun _ _ => id_order), (fun _ _ => id_order), f, q.
    split; [exact (home_externals f)|]. split; [exact (home_calm f)|]. split; [exact (home_crash_free f)|].
    split; [exact (home_sound f)|reflexivity]. }
  split; [intros s; apply S|intros zip]. cbn [env_zip home_env]. destruct (list_eqb N.eqb zip zip_bytes).
  - rewrite archive_loads. apply S.
  - left. exists EIo. reflexivity.
Qed.
(** No engine of these files has a stemmer. *)
Lemma home_no_stemmer f fo uo p en :
  from_path demo_ext demo_shape no_ngrams demo_math home_loader fo uo f p = Ok en -> rs_stemmer (en_resources en) = None.
Proof.
  unfold from_path. intros H. bind_inv H. bind_inv H. bind_inv H.
  assert (en_resources en = a0) as -> by (apply (f_equal (fun o => match o with Ok e => en_resources e | _ => a0 end)) in H; symmetry; exact H).
  clear H E1 E. unfold resources_of in E0. bind_inv E0. unfold load_shared_resources in E0. bind_inv E0.
  apply read_json_ok in E1 as (j & J & D). destruct (home_plain _ _ _ _ J D) as [_ S].
  unfold load_stemmer in E0. rewrite S in E0. cbn [bind] in E0. do 5 bind_inv E0. inv E0. reflexivity.
Qed.
Lemma spoken_short res : rs_stemmer res = None -> texts_below_limit demo_ext res spoken.
Proof.
  intros S. destruct home_texts as [A B]. split; [exact A|]. intros s H. apply B.
  destruct H as [H|(l & st & words & Hst & Hw & E)]; [left; exact H|]. right. exists l, st, words. split; [|auto].
  left. destruct Hst as [Hst|Hst]; [exact Hst|]. rewrite Hst. exact S.
Qed.
Lemma show_calm o : show o <> Panic.
Proof. destruct o; discriminate. Qed.
Lemma to_c_calm o : to_c o <> Panic.
Proof. unfold to_c. pose proof (show_calm o). destruct (show o); cbn [bind]; congruence || discriminate. Qed.

Lemma host_sound : sound_history demo_ext demo_shape no_ngrams demo_math home_loader show to_c host.
Proof.
  intros e c Hin.
  assert (He : exists a, e = home_env a).
  { unfold host in Hin. cbn [In] in Hin. repeat (destruct Hin as [Hin|Hin]; [apply (f_equal fst) in Hin; cbn [fst] in Hin; eexists; symmetry; exact Hin|]). destruct Hin. }
  split; [destruct He as (a & ->); apply home_env_sound|].
  intros i s en Hi Ht (e' & c' & Hin' & Hen).
  assert (Hs : s = spoken).
  { destruct Ht as [U ->]. unfold host in Hin. cbn [In] in Hin.
    assert (Q : forall t, utf8_encode s = utf8_encode t -> unicode t -> s = t).
    { intros t Eb Ut. pose proof (utf8_round s U) as R1. rewrite Eb, (utf8_round t Ut) in R1. injection R1 as <-. reflexivity. }
    assert (Us : unicode spoken) by exact (proj1 (demo_text "Turn on the  LIVING   Room now" eq_refl)).
    repeat (destruct Hin as [Hin|Hin]; [apply (f_equal snd) in Hin; cbn [snd] in Hin; subst c; cbn [input_of] in Hi;
      try discriminate Hi; injection Hi as Hi;
      first [apply Q; [symmetry; exact Hi|exact Us]
            |exfalso; apply (f_equal utf8_decode) in Hi; rewrite (utf8_round s U) in Hi; vm_compute in Hi; discriminate Hi]|]).
    destruct Hin. }
  subst s. split; [|intros o _; split; [apply show_calm|apply to_c_calm]].
  apply spoken_short.
  assert (He' : exists a, e' = home_env a).
  { unfold host in Hin'. cbn [In] in Hin'. repeat (destruct Hin' as [Hin'|Hin']; [apply (f_equal fst) in Hin'; cbn [fst] in Hin'; eexists; symmetry; exact Hin'|]). destruct Hin'. }
  destruct He' as (a & ->). destruct Hen as [(t & Hen)|(z & Hen)]; cbn [env_dir env_zip home_env] in Hen.
  - exact (home_no_stemmer _ _ _ _ _ Hen).
  - destruct (list_eqb N.eqb z zip_bytes); [|discriminate]. rewrite archive_loads in Hen. exact (home_no_stemmer _ _ _ _ _ Hen).
Qed.
Lemma host_replies : snd (run demo_ext show to_c no_client host) =
  [ROk (OutClient 1); ROk (OutText $"lightOn"); RKo; ROk (OutText $"LIVING   Room "); RKo; RKo;
   ROk (OutClient 3); ROk (OutText $"lightOn"); RKo; ROk OutNothing].
Proof. vm_compute. reflexivity. Qed.
