(** Lemmas about the extraction of archives. *)
From Coq Require Import String List NArith ZArith Bool Arith Lia.
From Verif Require Import Base F32 M_Types M_Engine M_Feat M_Prob M_Features M_Res M_Fs M_Json M_Load M_Inject M_Zip
  S_Base S_Load S_Inject S_Zip P_Base P_Res P_Load P_Names P_Inject P_Effects.
Import ListNotations.
Local Open Scope nat_scope.

(** ** Names *)
Lemma before_nul_visible s : visible s (before_nul s).
Proof.
  induction s as [|c s [N IH]]; simpl; [split; auto; intros []|].
  destruct (N.eqb_spec c nul) as [->|Nc].
  - split; [intros []|]. right. exists s. reflexivity.
  - split; [intros [E|I]; [congruence|exact (N I)]|].
    destruct IH as [IH|(r & IH)]; [left; rewrite <- IH; reflexivity|right; exists r; simpl; rewrite <- IH; reflexivity].
Qed.
Lemma visible_before_nul raw s : visible raw s -> before_nul raw = s.
Proof.
  intros [N H]. assert (A : forall r, ~ In nul s -> before_nul (s ++ nul :: r) = s).
  { clear. intros r. induction s as [|c s IH]; simpl; intros N; [reflexivity|].
    destruct (N.eqb_spec c nul) as [->|Nc]; [exfalso; auto|]. rewrite IH; auto. }
  destruct H as [->|(r & ->)]; auto.
  specialize (A [] N). clear -N. induction s as [|c s IH]; simpl; auto.
  destruct (N.eqb_spec c nul) as [->|Nc]; [exfalso; apply N; left; reflexivity|].
  rewrite IH; auto. intros I. apply N. right. exact I.
Qed.

Definition unslash (c : char) : char := if (c =? backslash)%N then slash else c.
Lemma unslash_sep c : (unslash c =? slash)%N = true <-> separator c.
Proof.
  unfold unslash, separator. destruct (N.eqb_spec c backslash) as [->|N].
  - split; auto.
  - rewrite N.eqb_eq. split; auto. intros [H|H]; [auto|contradiction].
Qed.
Lemma unslash_id p : (forall c, In c p -> ~ separator c) -> map unslash p = p.
Proof.
  intros H. induction p as [|c p IH]; auto. simpl. rewrite IH by (intros; apply H; right; assumption). f_equal.
  unfold unslash. destruct (N.eqb_spec c backslash) as [->|N]; auto. exfalso. apply (H backslash); [left; reflexivity|right; reflexivity].
Qed.
Lemma unslash_plain p : (forall c, In c p -> ~ separator c) -> Forall (fun c => (c =? slash)%N = false) (map unslash p).
Proof.
  intros H. rewrite (unslash_id p H). apply Forall_forall. intros c I. destruct (N.eqb_spec c slash) as [->|]; auto.
  exfalso. apply (H slash I). left. reflexivity.
Qed.
Lemma pieces_split s l : pieces s l -> split_on (fun c => (c =? slash)%N) (map unslash s) = l.
Proof.
  induction 1 as [p P|p c r l P C R IH].
  - rewrite split_on_plain by (apply unslash_plain; exact P). rewrite unslash_id; auto.
  - rewrite map_app. cbn [map]. rewrite split_on_app_sep; [rewrite IH, unslash_id; auto|apply unslash_plain; exact P|].
    apply unslash_sep. exact C.
Qed.
Lemma pieces_ex s : exists l, pieces s l.
Proof.
  assert (G : forall s p, (forall c, In c p -> ~ separator c) -> exists l, pieces (p ++ s) l).
  { clear. induction s as [|c s IH]; intros p P.
    - exists [p]. rewrite app_nil_r. constructor. exact P.
    - destruct ((unslash c =? slash)%N) eqn:E.
      + destruct (IH []) as (l & H); [intros ? []|]. exists (p :: l). constructor; auto. apply unslash_sep. exact E.
      + destruct (IH (p ++ [c])) as (l & H).
        * intros d I. apply in_app_or in I as [I|[<-|[]]]; auto. intros S. apply unslash_sep in S. congruence.
        * exists l. rewrite <- app_assoc in H. exact H. }
  destruct (G s []) as (l & H); [intros ? []|]. exists l. exact H.
Qed.
Lemma names_of_components l :
  flat_map (fun c => match c with CName n => [n] | CUp => [] end) (flat_map comp_of l) = filter ordinary l.
Proof.
  induction l as [|n l IH]; auto. cbn [flat_map filter]. rewrite flat_map_app, IH. unfold comp_of, ordinary.
  change ($".") with [dot]. change ($"..") with [dot; dot].
  destruct (str_eqb n []); [reflexivity|]. destruct (str_eqb n [dot]); [reflexivity|].
  destruct (str_eqb n [dot; dot]); reflexivity.
Qed.
Lemma entry_names_iff raw names : entry_names raw names <-> sanitized_name raw = names.
Proof.
  unfold sanitized_name, components. change (fun c : N => if (c =? backslash)%N then slash else c) with unslash.
  rewrite names_of_components. split.
  - intros (s & l & V & P & ->). rewrite (visible_before_nul _ _ V). f_equal. exact (pieces_split _ _ P).
  - intros <-. destruct (pieces_ex (before_nul raw)) as (l & P). exists (before_nul raw), l.
    split; [apply before_nul_visible|]. split; auto. f_equal. exact (pieces_split _ _ P).
Qed.
Lemma pieces_no_slash s l : pieces s l -> forall p, In p l -> ~ In slash p.
Proof.
  induction 1 as [p P|p c r l P C R IH]; intros q I.
  - destruct I as [<-|[]]. intros S. apply (P slash S). left. reflexivity.
  - destruct I as [<-|I]; auto. intros S. apply (P slash S). left. reflexivity.
Qed.
Lemma entry_simple raw names n : entry_names raw names -> In n names -> simple_name n.
Proof.
  intros (s & l & _ & P & ->) I. apply filter_In in I as [I O].
  unfold ordinary in O. apply andb_prop in O as [O O3]. apply andb_prop in O as [O1 O2].
  apply negb_true_iff in O1, O2, O3.
  split; [|split; [|split]]; [intros ->; discriminate..|]. eapply pieces_no_slash; eauto.
Qed.

Lemma dir_name_iff raw : for_directory raw <-> is_dir_name raw = true.
Proof.
  unfold for_directory, is_dir_name, separator. split.
  - intros (s & c & -> & C). rewrite rev_app_distr. simpl. destruct C as [->| ->]; reflexivity.
  - destruct (rev raw) as [|c r] eqn:E; [discriminate|]. intros H. exists (rev r), c. split.
    + rewrite <- (rev_involutive raw), E. reflexivity.
    + apply orb_prop in H as [H|H]; apply N.eqb_eq in H; auto.
Qed.

(** ** Traces *)
Definition grows (o : op) (f : fs) : Prop :=
  node_at f (removelast (op_path o)) = Some Dir /\
  match o with
  | OMkdir q => f q = None
  | OWrite q _ => f q <> Some Dir
  | ORemove _ => False
  end.
Section Traces.
  (** [MD] [MF]: the names, below [d], of the directories and files that may be made. *)
  Context (d : list str).
  Fixpoint trace (MD MF : list str -> Prop) (f : fs) (t : list op) : Prop :=
    match t with
    | [] => True
    | o :: t' =>
        (exists r, r <> [] /\ op_path o = d ++ r /\ match o with OMkdir _ => MD r | _ => MF r end) /\
        grows o f /\ trace MD MF (apply_op f o) t'
    end.

  Lemma trace_app MD MF f t t' : trace MD MF f (t ++ t') <-> trace MD MF f t /\ trace MD MF (apply_ops f t) t'.
  Proof.
    revert f. induction t as [|o t IH]; intros f; simpl; [tauto|]. rewrite IH. tauto.
  Qed.
  Lemma trace_weaken (MD MF MD' MF' : list str -> Prop) f t :
    (forall r, MD r -> MD' r) -> (forall r, MF r -> MF' r) -> trace MD MF f t -> trace MD' MF' f t.
  Proof.
    intros A B. revert f. induction t as [|o t IH]; intros f; simpl; auto.
    intros ((r & N & E & M) & G & T). split; [exists r; split; auto; split; auto; destruct o; auto|]. auto.
  Qed.
  Lemma trace_dir MD MF t : forall f q, trace MD MF f t -> f q = Some Dir -> apply_ops f t q = Some Dir.
  Proof.
    induction t as [|o t IH]; intros f q T H; auto. simpl in *. destruct T as (_ & [_ G] & T). apply IH; auto.
    destruct o as [p c|p|p]; simpl in *; [| |contradiction].
    - destruct (names_eqb p q) eqn:E; auto. apply names_eqb_spec in E as ->. contradiction.
    - destruct (names_eqb p q) eqn:E; auto.
  Qed.
  Lemma trace_file MD MF t : forall f q c, trace MD MF f t -> f q = Some (File c) ->
    exists c', apply_ops f t q = Some (File c').
  Proof.
    induction t as [|o t IH]; intros f q c T H; [exists c; exact H|]. simpl in *. destruct T as (_ & [_ G] & T).
    destruct o as [p c0|p|p]; simpl in *; [| |contradiction].
    - destruct (names_eqb p q) eqn:E.
      + apply (IH _ _ c0 T). simpl. rewrite E. reflexivity.
      + apply (IH _ _ c T). simpl. rewrite E. exact H.
    - destruct (names_eqb p q) eqn:E; [apply names_eqb_spec in E as ->; congruence|].
      apply (IH _ _ c T). simpl. rewrite E. exact H.
  Qed.
  Lemma trace_kept MD MF t : forall f r c, trace MD MF f t -> ~ MF r ->
    f (d ++ r) = Some (File c) -> apply_ops f t (d ++ r) = Some (File c).
  Proof.
    induction t as [|o t IH]; intros f r c T N H; auto. simpl in *. destruct T as ((r' & Nr & E & M) & [_ G] & T).
    apply IH; auto. destruct o as [p c0|p|p]; simpl in *; [| |contradiction].
    - destruct (names_eqb p (d ++ r)) eqn:Eq; auto. apply names_eqb_spec in Eq. subst p.
      apply app_inv_head in Eq as ->. contradiction.
    - destruct (names_eqb p (d ++ r)) eqn:Eq; auto. apply names_eqb_spec in Eq as ->. congruence.
  Qed.
  Lemma trace_below MD MF t f o : trace MD MF f t -> In o t -> strictly_below d (op_path o).
  Proof.
    revert f. induction t as [|o' t IH]; intros f T I; [contradiction|]. simpl in T. destruct T as ((r & N & E & M) & _ & T).
    destruct I as [<-|I]; [exists r; auto|]. eauto.
  Qed.
  Lemma trace_no_remove MD MF t f p : trace MD MF f t -> ~ In (ORemove p) t.
  Proof.
    revert f. induction t as [|o' t IH]; intros f T I; [contradiction|]. simpl in T. destruct T as (_ & [_ G] & T).
    destruct I as [->|I]; [exact G|]. eapply IH; eauto.
  Qed.
  (** What changed. *)
  Lemma trace_changed MD MF t : forall f q, trace MD MF f t ->
    apply_ops f t q = f q \/
    exists r, r <> [] /\ q = d ++ r /\
      ((f q = None /\ apply_ops f t q = Some Dir /\ MD r) \/ (exists c, apply_ops f t q = Some (File c) /\ MF r)).
  Proof.
    induction t as [|o t IH]; intros f q T; [left; reflexivity|]. simpl in T. destruct T as ((r & N & E & M) & [Pa G] & T).
    simpl. destruct (IH _ q T) as [I|(r' & N' & -> & I)].
    - rewrite I. destruct o as [p c|p|p]; simpl in *; [| |contradiction].
      + destruct (names_eqb p q) eqn:Eq; auto. apply names_eqb_spec in Eq. right. exists r. split; auto.
        split; [congruence|]. right. exists c. auto.
      + destruct (names_eqb p q) eqn:Eq; auto. apply names_eqb_spec in Eq. right. exists r. split; auto.
        split; [congruence|]. left. split; [congruence|]. auto.
    - right. exists r'. split; auto. split; auto. destruct I as [(A & B & C)|I]; auto. left. split; [|auto].
      destruct o as [p c|p|p]; simpl in *; [| |contradiction].
      + destruct (names_eqb p (d ++ r')); congruence.
      + destruct (names_eqb p (d ++ r')); congruence.
  Qed.
  Lemma trace_tree MD MF t : forall f, trace MD MF f t -> tree_like f -> tree_like (apply_ops f t).
  Proof.
    induction t as [|o t IH]; intros f T H; auto. simpl in *. destruct T as (_ & [P G] & T). apply IH; auto.
    intros q n F. destruct o as [p c|p|p]; simpl in *; [| |contradiction].
    - destruct (names_eqb p (q ++ [n])) eqn:E.
      + apply names_eqb_spec in E as ->. rewrite removelast_last in P.
        destruct q as [|x q]; [left; reflexivity|right]. simpl in P.
        destruct (names_eqb ((x :: q) ++ [n]) (x :: q)) eqn:E2; auto.
        apply names_eqb_spec in E2. apply (f_equal (@length str)) in E2. rewrite app_length in E2. simpl in E2. lia.
      + destruct (H q n F) as [->|D]; [left; reflexivity|]. destruct (names_eqb p q) eqn:E2; auto.
        apply names_eqb_spec in E2 as ->. contradiction.
    - destruct (names_eqb p (q ++ [n])) eqn:E.
      + apply names_eqb_spec in E as ->. rewrite removelast_last in P.
        destruct q as [|x q]; [left; reflexivity|right]. simpl in P.
        destruct (names_eqb ((x :: q) ++ [n]) (x :: q)) eqn:E2; auto.
      + destruct (H q n F) as [->|D]; [left; reflexivity|]. destruct (names_eqb p q) eqn:E2; auto.
  Qed.
  Lemma trace_prefix MD MF f t t' : trace MD MF f (t ++ t') -> trace MD MF f t.
  Proof. intros T. apply trace_app in T. tauto. Qed.
End Traces.

Lemma directory_app f d r : directory f (d ++ r) -> directory f d.
Proof. intros H a b E N. apply (H a (b ++ r)); auto. rewrite E, app_assoc. reflexivity. Qed.
Lemma directory_self f d : directory f d -> node_at f d = Some Dir.
Proof. intros H. destruct d as [|n d]; auto. apply (H (n :: d) []); [symmetry; apply app_nil_r|discriminate]. Qed.
Lemma directory_snoc f d n : directory f d -> f (d ++ [n]) = Some Dir -> directory f (d ++ [n]).
Proof.
  intros H E a b Eq N. destruct b as [|x b _] using rev_ind.
  - rewrite app_nil_r in Eq. subst. exact E.
  - rewrite app_assoc in Eq. apply app_inj_tail in Eq as [Eq _]. eapply H; eauto.
Qed.
Lemma trace_directory d MD MF f t q : trace d MD MF f t -> directory f q -> directory (apply_ops f t) q.
Proof. intros T H a b E N. eapply trace_dir; eauto. Qed.

Lemma directory_tree f d : tree_like f -> node_at f d = Some Dir -> directory f d.
Proof.
  intros T. induction d as [|n d IH] using rev_ind; intros H a b E N.
  - destruct a; [contradiction|discriminate].
  - assert (F : f (d ++ [n]) = Some Dir) by (destruct d; exact H).
    destruct b as [|x b _] using rev_ind.
    + rewrite app_nil_r in E. subst. exact F.
    + rewrite app_assoc in E. apply app_inj_tail in E as [E _]. apply (IH) with (b := b); auto.
      destruct (T d n) as [->|D]; [congruence|reflexivity|]. destruct d; auto.
Qed.

Section Zip.
  Context (io : op -> bool).
  Notation create_dirs := (create_dirs io).
  Notation create_file := (create_file io).
  Notation extract_entry := (extract_entry io).
  Notation extract_all := (extract_all io).
  Notation extract := (extract io).

  (** *** Directories *)
  Lemma create_dirs_existing f done a b :
    directory f (done ++ a) -> create_dirs f done (a ++ b) = create_dirs f (done ++ a) b.
  Proof.
    revert done. induction a as [|n a IH]; intros done H; simpl; [rewrite app_nil_r; reflexivity|].
    assert (E : done ++ n :: a = (done ++ [n]) ++ a) by (rewrite <- app_assoc; reflexivity).
    rewrite (H (done ++ [n]) a E) by (destruct done; discriminate). rewrite E in *. apply IH. exact H.
  Qed.

  Lemma create_dirs_trace d names : forall f pre, directory f (d ++ pre) ->
    let (t, r) := create_dirs f (d ++ pre) names in
    trace d (fun r => is_prefix r (pre ++ names)) (fun _ => False) f t /\ r <> Panic /\
    (r = Ok tt -> directory (apply_ops f t) (d ++ pre ++ names)) /\
    ((forall o, io o = true) -> (forall r c, r <> [] -> is_prefix r (pre ++ names) -> f (d ++ r) <> Some (File c)) -> r = Ok tt).
  Proof.
    induction names as [|n names IH]; intros f pre H; simpl.
    { rewrite app_nil_r. split; [exact I|]. split; [discriminate|]. auto. }
    assert (E : (d ++ pre) ++ [n] = d ++ pre ++ [n]) by (rewrite app_assoc; reflexivity).
    assert (E2 : (pre ++ [n]) ++ names = pre ++ n :: names) by (rewrite <- app_assoc; reflexivity).
    rewrite E. destruct (f (d ++ pre ++ [n])) as [[c|]|] eqn:F.
    - split; [exact I|]. split; [discriminate|]. split; [discriminate|]. intros _ K. exfalso.
      apply (K (pre ++ [n]) c); auto; [destruct pre; discriminate|]. exists names. symmetry. exact E2.
    - assert (H1 : directory f (d ++ pre ++ [n])) by (rewrite <- E in *; apply directory_snoc; auto).
      specialize (IH f (pre ++ [n]) H1). destruct (create_dirs f (d ++ pre ++ [n]) names) as [t r].
      rewrite E2 in IH. exact IH.
    - destruct (io (OMkdir (d ++ pre ++ [n]))) eqn:Eio.
      2:{ split; [exact I|]. split; [discriminate|]. split; [discriminate|]. intros K. rewrite K in Eio. discriminate. }
      set (f1 := apply_op f (OMkdir (d ++ pre ++ [n]))).
      assert (H1 : directory f1 (d ++ pre ++ [n])).
      { rewrite <- E. apply directory_snoc.
        - intros a b Ea Na. unfold f1. simpl. destruct (names_eqb _ a); auto. apply (H a b Ea Na).
        - unfold f1. simpl. rewrite E. rewrite (proj2 (names_eqb_spec _ _) eq_refl). reflexivity. }
      specialize (IH f1 (pre ++ [n]) H1). destruct (create_dirs f1 (d ++ pre ++ [n]) names) as [t r].
      rewrite E2 in IH. destruct IH as (T & P & S & O).
      split; [|split; auto; split; auto].
      + cbn [trace]. split; [|split; [split; [|exact F]|exact T]].
        * exists (pre ++ [n]). split; [destruct pre; discriminate|]. split; [reflexivity|]. exists names. symmetry. exact E2.
        * cbn [op_path]. rewrite <- E, removelast_last. apply directory_self. exact H.
      + intros K1 K2. apply O; auto. intros r' c Nr' Hp. unfold f1. simpl.
        destruct (names_eqb (d ++ pre ++ [n]) (d ++ r')); [discriminate|]. auto.
  Qed.

  (** *** One entry *)
  Definition names_of (e : ZEntry) : list str := sanitized_name (z_name e).
  Definition made_dirs (e : ZEntry) (r : list str) : Prop :=
    is_prefix r (names_of e) /\ (is_dir_name (z_name e) = false -> r <> names_of e).
  Definition made_file (e : ZEntry) (r : list str) : Prop := is_dir_name (z_name e) = false /\ r = names_of e.
  Definition present (d : list str) (f : fs) (e : ZEntry) : Prop :=
    if is_dir_name (z_name e) then directory f (d ++ names_of e)
    else names_of e <> [] /\ directory f (d ++ removelast (names_of e)) /\ exists c, f (d ++ names_of e) = Some (File c).

  Lemma removelast_map {A B} (g : A -> B) l : removelast (map g l) = map g (removelast l).
  Proof. induction l as [|a l IH]; auto. simpl. destruct l; auto. simpl in *. f_equal. exact IH. Qed.
  Lemma out_names d names : resolve (map CName d ++ map CName names) = d ++ names.
  Proof. rewrite resolve_under. f_equal. apply (resolve_under [] d). Qed.
  Lemma split_last {A} (l : list A) : l <> [] -> exists y, l = removelast l ++ [y].
  Proof. destruct l as [|a l]; [contradiction|]. intros N. exists (last (a :: l) a). apply app_removelast_last. exact N. Qed.

  Lemma create_dirs_at f d names : directory f d ->
    let (t, r) := create_dirs f [] (d ++ names) in
    trace d (fun r => is_prefix r names) (fun _ => False) f t /\ r <> Panic /\
    (r = Ok tt -> directory (apply_ops f t) (d ++ names)) /\
    ((forall o, io o = true) -> (forall r c, r <> [] -> is_prefix r names -> f (d ++ r) <> Some (File c)) -> r = Ok tt).
  Proof.
    intros D. rewrite create_dirs_existing by exact D. simpl.
    pose proof (create_dirs_trace d names f []) as H. rewrite app_nil_r in H. simpl in H. apply H. exact D.
  Qed.

  Lemma prefix_removelast (l r : list str) : is_prefix r (removelast l) -> l <> [] -> is_prefix r l /\ r <> l.
  Proof.
    intros (c & E) N. destruct (split_last l N) as (y & El). split.
    - exists (c ++ [y]). rewrite El at 1. rewrite E, app_assoc. reflexivity.
    - intros ->. apply (f_equal (@length str)) in E, El. rewrite app_length in *. simpl in El. lia.
  Qed.

  (** The trees in which a file can be created. *)
  Definition creatable (f : fs) (q : list str) : Prop :=
    node_at f (removelast q) = Some Dir /\ node_at f q <> Some Dir.

  Lemma node_kept f q c p : f q <> Some Dir -> node_at f p = Some Dir -> node_at (apply_op f (OWrite q c)) p = Some Dir.
  Proof.
    intros N H. destruct p as [|x p]; auto. simpl in *. destruct (names_eqb q (x :: p)) eqn:E; auto.
    apply names_eqb_spec in E as ->. contradiction.
  Qed.

  Lemma write_spec f d e : directory f d -> is_dir_name (z_name e) = false ->
    let q := d ++ names_of e in
    let (t, r) := seq f (create_file f q) (fun _ => copy io q e) in
    trace d (made_dirs e) (made_file e) f t /\
    (r = Ok tt -> z_complete e = true /\ node_at f (removelast q) = Some Dir /\ names_of e <> [] /\
       apply_ops f t q = Some (File (z_data e))) /\
    (r = Panic -> t = [] /\ ((forall o, io o = true) -> ~ creatable f q)) /\
    ((forall o, io o = true) -> z_complete e = true -> creatable f q -> r = Ok tt).
  Proof.
    intros D Dn q. unfold M_Zip.create_file, creatable. fold q.
    assert (Bad : forall P : Prop, (P -> False) -> trace d (made_dirs e) (made_file e) f [] /\
              ((@Panic unit) = Ok tt -> z_complete e = true /\ node_at f (removelast q) = Some Dir /\ names_of e <> [] /\ apply_ops f [] q = Some (File (z_data e))) /\
              ((@Panic unit) = Panic -> ([] : list op) = [] /\ ((forall o, io o = true) -> ~ P)) /\
              ((forall o, io o = true) -> z_complete e = true -> P -> (@Panic unit) = Ok tt)).
    { intros P H. split; [exact I|]. split; [discriminate|]. split; [auto|]. intros _ _ p. contradiction. }
    destruct (node_at f (removelast q)) as [[c|]|] eqn:Np; [apply Bad; intros [? _]; discriminate| |apply Bad; intros [? _]; discriminate].
    assert (Go : node_at f q <> Some Dir ->
      let (t, r) := seq f (if io (OWrite q []) then ([OWrite q []], Ok tt) else ([], Panic)) (fun _ => copy io q e) in
      trace d (made_dirs e) (made_file e) f t /\
      (r = Ok tt -> z_complete e = true /\ Some Dir = Some Dir /\ names_of e <> [] /\ apply_ops f t q = Some (File (z_data e))) /\
      (r = Panic -> t = [] /\ ((forall o, io o = true) -> ~ (Some Dir = Some Dir /\ node_at f q <> Some Dir))) /\
      ((forall o, io o = true) -> z_complete e = true -> Some Dir = Some Dir /\ node_at f q <> Some Dir -> r = Ok tt)).
    { intros Ns. assert (Nn : names_of e <> []).
      { intros En. apply Ns. unfold q. rewrite En, app_nil_r. apply directory_self. exact D. }
      assert (Fd : f q <> Some Dir).
      { unfold node_at in Ns. destruct q eqn:Eq; auto. }
      assert (Mf : exists r, r <> [] /\ q = d ++ r /\ made_file e r) by (exists (names_of e); repeat split; auto).
      assert (Eq : names_eqb q q = true) by (apply names_eqb_spec; reflexivity).
      destruct (io (OWrite q [])) eqn:Io1; unfold seq; cbn [fst snd].
      2:{ split; [exact I|]. split; [discriminate|]. split; [|intros H; rewrite H in Io1; discriminate].
          intros _. split; auto. intros H. rewrite H in Io1. discriminate. }
      unfold copy. destruct (io (OWrite q (z_data e))) eqn:Io2.
      2:{ split; [cbn [app trace op_path]; split; [exact Mf|]; split; [split; [exact Np|exact Fd]|exact I]|]. split; [discriminate|]. split; [discriminate|]. intros H. rewrite H in Io2. discriminate. }
      split.
      { cbn [app trace op_path]. split; [exact Mf|]. split; [split; [exact Np|exact Fd]|]. split; [exact Mf|]. split; [|exact I].
        split; [|simpl; rewrite Eq; discriminate]. cbn [op_path]. apply (node_kept f q []); auto. }
      split; [|split; [|intros _ -> _; reflexivity]]; destruct (z_complete e); try discriminate.
      intros _. split; auto. split; auto. split; auto. simpl. rewrite Eq. reflexivity. }
    destruct (node_at f q) as [[c|]|] eqn:Nq; [apply Go; discriminate| |apply Go; discriminate].
    apply Bad. intros [_ H]. contradiction.
  Qed.

  (** What is made before the file: its directory, unless there is something there. *)
  Definition make_parent (f : fs) (out : path) : effect unit :=
    match out with
    | [] => ([], Ok tt)
    | _ => match node_at f (resolve (removelast out)) with
           | Some _ => ([], Ok tt)
           | None => create_dirs f [] (resolve (removelast out))
           end
    end.
  Lemma parent_spec f d e : directory f d -> is_dir_name (z_name e) = false ->
    let (t, r) := make_parent f (map CName d ++ map CName (names_of e)) in
    trace d (made_dirs e) (made_file e) f t /\ r <> Panic /\
    (names_of e = [] -> t = [] /\ r = Ok tt) /\
    (r = Ok tt -> names_of e <> [] -> exists n, node_at (apply_ops f t) (d ++ removelast (names_of e)) = Some n /\
        (n = Dir \/ (t = [] /\ f (d ++ removelast (names_of e)) = Some n))) /\
    ((forall o, io o = true) -> (forall r c, r <> [] -> is_prefix r (removelast (names_of e)) -> f (d ++ r) <> Some (File c)) -> r = Ok tt).
  Proof.
    intros D Dn. unfold make_parent.
    destruct (list_eq_dec (list_eq_dec N.eq_dec) (names_of e) []) as [En|Nn].
    - rewrite En. simpl. rewrite app_nil_r.
      assert (K : trace d (made_dirs e) (made_file e) f [] /\ Ok tt <> Panic /\ (([] : list str) = [] -> ([] : list op) = [] /\ Ok tt = Ok tt) /\
          (Ok tt = Ok tt -> ([] : list str) <> [] -> exists n, node_at f (d ++ []) = Some n /\ (n = Dir \/ ([] : list op) = [] /\ f (d ++ []) = Some n)) /\
          ((forall o, io o = true) -> (forall r c, r <> [] -> is_prefix r [] -> f (d ++ r) <> Some (File c)) -> Ok tt = Ok tt)).
      { split; [exact I|]. split; [discriminate|]. split; [auto|]. split; [contradiction|auto]. }
      destruct (map CName d) as [|c l] eqn:Ed; [exact K|].
      assert (E : resolve (removelast (c :: l)) = removelast d).
      { rewrite <- Ed, removelast_map. apply (resolve_under [] (removelast d)). }
      rewrite E. rewrite directory_self; [exact K|].
      assert (Nd : d <> []) by (intros ->; discriminate). destruct (split_last d Nd) as (y & Ey).
      rewrite Ey in D. apply directory_app in D. exact D.
    - assert (E : removelast (map CName d ++ map CName (names_of e)) = map CName d ++ map CName (removelast (names_of e))).
      { rewrite <- map_app, removelast_map, removelast_app by exact Nn. apply map_app. }
      destruct (map CName d ++ map CName (names_of e)) as [|c l] eqn:Ed.
      { exfalso. apply app_eq_nil in Ed as [_ Ed]. destruct (names_of e); [contradiction|discriminate]. }
      rewrite E, out_names.
      destruct (node_at f (d ++ removelast (names_of e))) as [n|] eqn:Np.
      + split; [exact I|]. split; [discriminate|]. split; [contradiction|]. split; [|auto]. intros _ _. exists n. split; auto.
        unfold node_at in Np. destruct (d ++ removelast (names_of e)) eqn:Ee; [left; congruence|right; auto].
      + pose proof (create_dirs_at f d (removelast (names_of e)) D) as H.
        destruct (create_dirs f [] (d ++ removelast (names_of e))) as [t r]. destruct H as (T & P & S & O).
        split; [|split; [exact P|]; split; [contradiction|]; split; [|exact O]].
        * eapply trace_weaken; [| |exact T]; [|contradiction]. intros r' H. apply prefix_removelast in H as [H1 H2]; auto.
          split; auto.
        * intros Er _. exists Dir. split; auto. apply directory_self. auto.
  Qed.

  Lemma parent_trace f d e : directory f d ->
    trace d (fun r => is_prefix r (removelast (names_of e))) (fun _ => False) f
      (fst (make_parent f (map CName d ++ map CName (names_of e)))).
  Proof.
    intros D. unfold make_parent.
    destruct (map CName d ++ map CName (names_of e)) as [|c l] eqn:Ed; [exact I|].
    destruct (list_eq_dec (list_eq_dec N.eq_dec) (names_of e) []) as [En|Nn].
    - rewrite <- Ed, En. simpl map. rewrite app_nil_r, removelast_map.
      replace (resolve (map CName (removelast d))) with (removelast d) by (symmetry; apply (resolve_under [] (removelast d))).
      rewrite directory_self; [exact I|].
      destruct (list_eq_dec (list_eq_dec N.eq_dec) d []) as [->|Nd]; [exact D|].
      destruct (split_last d Nd) as (y & Ey). rewrite Ey in D. apply directory_app in D. exact D.
    - rewrite <- Ed, <- map_app, removelast_map, removelast_app by exact Nn. rewrite map_app, out_names.
      destruct (node_at f (d ++ removelast (names_of e))); [exact I|].
      pose proof (create_dirs_at f d (removelast (names_of e)) D) as H.
      destruct (create_dirs f [] (d ++ removelast (names_of e))) as [t r]. apply H.
  Qed.
  Lemma parent_makes f d e : directory f d -> is_dir_name (z_name e) = false ->
    forall t r q, make_parent f (map CName d ++ map CName (names_of e)) = (t, r) ->
    q = names_of e -> q <> [] -> apply_ops f t (d ++ q) = f (d ++ q).
  Proof.
    intros D Dn t r q H -> Nn. pose proof (parent_trace f d e D) as T. rewrite H in T. cbn [fst] in T.
    destruct (trace_changed _ _ _ _ _ (d ++ names_of e) T) as [E|(r' & _ & E & [(_ & _ & M)|(c & _ & M)])]; auto.
    - apply app_inv_head in E. subst r'. destruct M as (c & M). exfalso.
      destruct (split_last (names_of e) Nn) as (y & Ey). apply (f_equal (@length str)) in Ey, M.
      rewrite app_length in *. simpl in Ey. lia.
    - contradiction.
  Qed.

  Lemma entry_unfold f d e : extract_entry f (map CName d) e =
    if z_readable e then
      if is_dir_name (z_name e) then create_dirs f [] (d ++ names_of e)
      else seq f (make_parent f (map CName d ++ map CName (names_of e)))
               (fun f => seq f (create_file f (d ++ names_of e)) (fun _ => copy io (d ++ names_of e) e))
    else ([], Err EIo).
  Proof. unfold M_Zip.extract_entry. fold (names_of e). rewrite out_names. reflexivity. Qed.

  Lemma entry_spec f d e : directory f d ->
    let (t, r) := extract_entry f (map CName d) e in
    trace d (made_dirs e) (made_file e) f t /\
    (r = Ok tt -> z_readable e = true /\
       (is_dir_name (z_name e) = true -> directory (apply_ops f t) (d ++ names_of e)) /\
       (is_dir_name (z_name e) = false ->
          z_complete e = true /\ names_of e <> [] /\
          node_at (apply_ops f t) (d ++ removelast (names_of e)) = Some Dir /\
          apply_ops f t (d ++ names_of e) = Some (File (z_data e)))) /\
    (r = Panic -> z_readable e = true /\ is_dir_name (z_name e) = false /\
       ((forall o, io o = true) -> names_of e = [] \/ (exists c, removelast (names_of e) <> [] /\ f (d ++ removelast (names_of e)) = Some (File c)) \/
          f (d ++ names_of e) = Some Dir)) /\
    ((forall o, io o = true) -> z_readable e = true ->
     (is_dir_name (z_name e) = false -> z_complete e = true /\ names_of e <> [] /\ f (d ++ names_of e) <> Some Dir) ->
     (forall r c, r <> [] -> is_prefix r (names_of e) -> (is_dir_name (z_name e) = false -> r <> names_of e) ->
        f (d ++ r) <> Some (File c)) -> r = Ok tt).
  Proof.
    intros D. rewrite entry_unfold. destruct (z_readable e).
    2:{ split; [exact I|]. split; [discriminate|]. split; discriminate. }
    destruct (is_dir_name (z_name e)) eqn:Dn.
    - pose proof (create_dirs_at f d (names_of e) D) as H. destruct (create_dirs f [] (d ++ names_of e)) as [t r].
      destruct H as (T & P & S & O). split; [|split; [|split]].
      + eapply trace_weaken; [| |exact T]; [|contradiction]. intros r' H. split; auto. congruence.
      + intros E. split; auto. split; auto. discriminate.
      + intros E. contradiction.
      + intros H1 _ _ H2. apply O; auto. intros r' c Nr Hp. apply H2; auto. discriminate.
    - pose proof (parent_spec f d e D Dn) as H. pose proof (parent_makes f d e D Dn) as Pm.
      destruct (make_parent f (map CName d ++ map CName (names_of e))) as [t0 r0].
      specialize (Pm t0 r0). assert (Pm' := fun q => Pm q eq_refl). clear Pm. rename Pm' into Pm. destruct H as (T0 & P0 & Z0 & N0 & O0).
      assert (Hp : forall r, names_of e <> [] -> is_prefix r (removelast (names_of e)) -> is_prefix r (names_of e) /\ r <> names_of e).
      { intros r Nn H. apply prefix_removelast; auto. }
      unfold seq at 1. cbn [fst snd]. destruct r0 as [[]|er|]; [| |contradiction].
      2:{ split; [exact T0|]. split; [discriminate|]. split; [discriminate|]. intros H1 _ H2 H3.
          destruct (H2 eq_refl) as (_ & Nn & _). discriminate O0; auto. intros r' c Nr H.
          destruct (Hp r' Nn H). apply H3; auto. }
      assert (D1 : directory (apply_ops f t0) d) by (eapply trace_directory; eauto).
      assert (Self : names_of e <> [] -> apply_ops f t0 (d ++ names_of e) = Some Dir -> f (d ++ names_of e) = Some Dir).
      { intros Nn H. rewrite <- (Pm (names_of e) eq_refl Nn). exact H. }
      pose proof (write_spec (apply_ops f t0) d e D1 Dn) as H. cbv zeta in H.
      destruct (seq (apply_ops f t0) _ _) as [t1 r1]. destruct H as (T1 & O1 & P1 & L1).
      rewrite apply_ops_app. split; [apply trace_app; auto|]. split; [|split].
      + intros E. split; auto. split; [discriminate|]. intros _. destruct (O1 E) as (A & B & C & F).
        split; auto. split; auto. split; auto. rewrite removelast_app in B by exact C.
        unfold node_at in *. destruct (d ++ removelast (names_of e)); auto. eapply trace_dir; eauto.
      + intros E. split; auto. split; auto. destruct (P1 E) as [-> C]. intros Hio. specialize (C Hio).
        destruct (names_of e) as [|x l] eqn:En; [left; reflexivity|right]. rewrite <- En in *.
        assert (Nn : names_of e <> []) by (rewrite En; discriminate). destruct (N0 eq_refl Nn) as (n & Nd & K).
        destruct n as [c|].
        * left. exists c. destruct K as [K|[_ K]]; [discriminate|]. split; [|exact K]. intros Er. rewrite Er, app_nil_r in K, Nd.
          rewrite directory_self in Nd by exact D1. discriminate.
        * right. apply Self; auto. destruct (apply_ops f t0 (d ++ names_of e)) as [[c'|]|] eqn:F; auto; exfalso; apply C.
          -- split; [rewrite removelast_app by exact Nn; exact Nd|]. unfold node_at. rewrite F.
             destruct (d ++ names_of e) eqn:Ee; [|discriminate]. apply app_eq_nil in Ee as [_ Ee]. contradiction.
          -- split; [rewrite removelast_app by exact Nn; exact Nd|]. unfold node_at. rewrite F.
             destruct (d ++ names_of e) eqn:Ee; [|discriminate]. apply app_eq_nil in Ee as [_ Ee]. contradiction.
      + intros Hio _ H2 H3. destruct (H2 eq_refl) as (Cp & Nn & Sd). apply L1; auto. split.
        * rewrite removelast_app by exact Nn. destruct (N0 eq_refl Nn) as (n & Nd & [->|[_ K]]); auto.
          destruct n as [c|]; auto. exfalso.
          assert (Nr : removelast (names_of e) <> []).
          { intros Er. rewrite Er, app_nil_r in Nd. rewrite directory_self in Nd by exact D1. discriminate. }
          destruct (Hp (removelast (names_of e)) Nn) as [Q1 Q2]; [exists []; symmetry; apply app_nil_r|].
          apply (H3 (removelast (names_of e)) c); auto.
        * intros N. apply Sd, Self; auto. unfold node_at in N. destruct (d ++ names_of e) eqn:Ee; auto.
          apply app_eq_nil in Ee as [_ Ee]. contradiction.
  Qed.

  (** *** All the entries *)
  Definition dirs_of (l : list ZEntry) (r : list str) : Prop := exists e, In e l /\ made_dirs e r.
  Definition files_of (l : list ZEntry) (r : list str) : Prop := exists e, In e l /\ made_file e r.

  Lemma all_trace d l : forall f, directory f d ->
    trace d (dirs_of l) (files_of l) f (fst (extract_all f (map CName d) l)).
  Proof.
    induction l as [|e l IH]; intros f D; [exact I|]. simpl. unfold seq.
    pose proof (entry_spec f d e D) as H. destruct (extract_entry f (map CName d) e) as [t r]. destruct H as (T & _).
    cbn [fst snd].
    assert (T' : trace d (dirs_of (e :: l)) (files_of (e :: l)) f t).
    { eapply trace_weaken; [| |exact T]; intros r' M; exists e; split; auto; left; reflexivity. }
    destruct r; auto. specialize (IH (apply_ops f t) (trace_directory _ _ _ _ _ _ T D)).
    destruct (extract_all (apply_ops f t) (map CName d) l) as [t' r']. cbn [fst] in *. apply trace_app. split; auto.
    eapply trace_weaken; [| |exact IH]; intros r0 (e0 & I0 & M); exists e0; split; auto; right; exact I0.
  Qed.

  Lemma all_app f dest a b : extract_all f dest (a ++ b) = seq f (extract_all f dest a) (fun f => extract_all f dest b).
  Proof.
    revert f. induction a as [|e a IH]; intros f.
    - unfold seq. simpl. destruct (extract_all f dest b). reflexivity.
    - simpl. unfold seq at 1 3. destruct (extract_entry f dest e) as [t [[]|er|]]; cbn [fst snd]; auto.
      rewrite IH. unfold seq. destruct (extract_all (apply_ops f t) dest a) as [t' [[]|er|]]; cbn [fst snd]; auto.
      rewrite apply_ops_app. destruct (extract_all (apply_ops (apply_ops f t) t') dest b). rewrite app_assoc. reflexivity.
  Qed.

  Lemma extract_trace f d a : directory f d ->
    exists MD MF, trace d MD MF f (fst (extract f (map CName d) a)) /\
      (forall r, MD r -> exists l e, a = Some l /\ In e l /\ made_dirs e r) /\
      (forall r, MF r -> exists l e, a = Some l /\ In e l /\ made_file e r).
  Proof.
    intros D. destruct a as [l|]; [|exists (fun _ => False), (fun _ => False); split; [exact I|]; split; contradiction].
    exists (dirs_of l), (files_of l). split.
    - pose proof (all_trace d l f D) as T. unfold M_Zip.extract, seq.
      destruct (extract_all f (map CName d) l) as [t [[]|er|]]; cbn [fst snd] in *; auto. rewrite app_nil_r. exact T.
    - split; intros r (e & I & M); eauto.
  Qed.

  (** ** Statements *)
  Lemma stays_below f d a : directory f d ->
    forall o, In o (fst (extract f (map CName d) a)) -> strictly_below d (op_path o) /\ forall p, o <> ORemove p.
  Proof.
    intros D o I. destruct (extract_trace f d a D) as (MD & MF & T & _). split; [eapply trace_below; eauto|].
    intros p ->. eapply trace_no_remove; eauto.
  Qed.

  Lemma zip_rest_unchanged f d a t1 t2 q : directory f d ->
    fst (extract f (map CName d) a) = t1 ++ t2 -> ~ strictly_below d q -> apply_ops f t1 q = f q.
  Proof.
    intros D E N. destruct (extract_trace f d a D) as (MD & MF & T & _). rewrite E in T. apply trace_prefix in T.
    destruct (trace_changed _ _ _ _ _ q T) as [H|(r & Nr & -> & _)]; auto. exfalso. apply N. exists r. auto.
  Qed.

  Lemma only_entries f d l t1 t2 q : directory f d ->
    fst (extract f (map CName d) (Some l)) = t1 ++ t2 -> apply_ops f t1 q <> f q ->
    exists e names r, In e l /\ entry_names (z_name e) names /\ q = d ++ r /\
      ((apply_ops f t1 q = Some Dir /\ f q = None /\ is_prefix r names /\ (r = names -> for_directory (z_name e))) \/
       (r = names /\ ~ for_directory (z_name e) /\ exists c, apply_ops f t1 q = Some (File c))).
  Proof.
    intros D E N. destruct (extract_trace f d (Some l) D) as (MD & MF & T & HD & HF). rewrite E in T. apply trace_prefix in T.
    destruct (trace_changed _ _ _ _ _ q T) as [H|(r & Nr & -> & [(A & B & M)|(c & B & M)])]; [contradiction| |].
    - destruct (HD r M) as (l' & e & El & I & P & Q). inv El. exists e, (names_of e), r.
      split; auto. split; [apply entry_names_iff; reflexivity|]. split; auto. left. split; auto. split; auto. split; auto.
      intros Er. rewrite dir_name_iff. destruct (is_dir_name (z_name e)); auto. exfalso. apply Q; auto.
    - destruct (HF r M) as (l' & e & El & I & P & Q). inv El. exists e, (names_of e), (names_of e).
      split; auto. split; [apply entry_names_iff; reflexivity|]. split; auto. right. split; auto. split; [|eauto].
      rewrite dir_name_iff. congruence.
  Qed.

  Lemma extract_ok f d a p t : extract f (map CName d) a = (t, Ok p) ->
    exists l, a = Some l /\ extract_all f (map CName d) l = (t, Ok tt) /\ engine_dir (map CName d) l = Ok p.
  Proof.
    unfold M_Zip.extract, seq. destruct a as [l|]; [|discriminate]. intros H. exists l. split; auto.
    destruct (extract_all f (map CName d) l) as [t' [[]|er|]]; cbn [fst snd] in H; [|discriminate..].
    rewrite app_nil_r in H. inv H. auto.
  Qed.

  Lemma all_ok f d l t : directory f d -> extract_all f (map CName d) l = (t, Ok tt) ->
    forall pre e post, l = pre ++ e :: post -> z_readable e = true /\
      (is_dir_name (z_name e) = true -> directory (apply_ops f t) (d ++ names_of e)) /\
      (is_dir_name (z_name e) = false -> z_complete e = true /\ names_of e <> [] /\
         node_at (apply_ops f t) (d ++ removelast (names_of e)) = Some Dir /\
         exists c, apply_ops f t (d ++ names_of e) = Some (File c) /\
           ((forall e', In e' post -> names_of e' <> names_of e) -> c = z_data e)).
  Proof.
    intros D H pre e post ->. rewrite all_app in H. unfold seq in H.
    pose proof (all_trace d pre f D) as T1.
    destruct (extract_all f (map CName d) pre) as [t1 [[]|er|]]; cbn [fst snd] in *; [|discriminate..].
    assert (D1 : directory (apply_ops f t1) d) by (eapply trace_directory; eauto).
    simpl in H. unfold seq in H. pose proof (entry_spec (apply_ops f t1) d e D1) as HE.
    destruct (extract_entry (apply_ops f t1) (map CName d) e) as [t2 [[]|er|]]; cbn [fst snd] in *; [|discriminate..].
    destruct HE as (T2 & O & _). destruct (O eq_refl) as (R & OD & OF).
    set (f2 := apply_ops (apply_ops f t1) t2) in *.
    assert (D2 : directory f2 d) by (eapply trace_directory; eauto).
    pose proof (all_trace d post f2 D2) as T3.
    destruct (extract_all f2 (map CName d) post) as [t3 r3]. cbn [fst] in T3. inv H.
    split; auto. rewrite !apply_ops_app. fold f2. split.
    - intros Dn. eapply trace_directory; eauto.
    - intros Dn. destruct (OF Dn) as (Cp & Nn & Np & Fe). split; auto. split; auto. split.
      { unfold node_at in *. destruct (d ++ removelast (names_of e)); auto. eapply trace_dir; eauto. }
      destruct (trace_file _ _ _ _ _ _ _ T3 Fe) as (c & Fc). exists c. split; auto.
      intros Nl. assert (K : apply_ops f2 t3 (d ++ names_of e) = Some (File (z_data e))).
      { eapply trace_kept; eauto. intros (e' & I' & _ & E'). eapply Nl; eauto. }
      congruence.
  Qed.

  Lemma extracted f d l p t : directory f d -> extract f (map CName d) (Some l) = (t, Ok p) ->
    (forall e, In e l -> z_readable e = true /\ (~ for_directory (z_name e) -> z_complete e = true)) /\
    (forall e names, In e l -> entry_names (z_name e) names -> for_directory (z_name e) ->
       directory (apply_ops f t) (d ++ names)) /\
    (forall pre e post names, l = pre ++ e :: post -> entry_names (z_name e) names -> ~ for_directory (z_name e) ->
       (forall e', In e' post -> ~ entry_names (z_name e') names) ->
       apply_ops f t (d ++ names) = Some (File (z_data e))).
  Proof.
    intros D H. apply extract_ok in H as (l' & El & H & _). inv El. split; [|split].
    - intros e I. apply in_split in I as (pre & post & E). destruct (all_ok f d l' t D H _ _ _ E) as (R & _ & OF).
      split; auto. intros N. destruct OF as [C _]; auto. destruct (is_dir_name (z_name e)) eqn:Dn; auto.
      exfalso. apply N. apply dir_name_iff. exact Dn.
    - intros e names I En Fd. apply in_split in I as (pre & post & E). destruct (all_ok f d l' t D H _ _ _ E) as (R & OD & _).
      apply entry_names_iff in En as <-. apply OD. apply dir_name_iff. exact Fd.
    - intros pre e post names E En N Np. destruct (all_ok f d l' t D H _ _ _ E) as (R & _ & OF).
      apply entry_names_iff in En as <-. destruct OF as (_ & _ & _ & c & Fc & K).
      { destruct (is_dir_name (z_name e)) eqn:Dn; auto. exfalso. apply N. apply dir_name_iff. exact Dn. }
      unfold names_of in *. rewrite Fc. f_equal. f_equal. apply K. intros e' I' E'. apply (Np e' I').
      apply entry_names_iff. exact E'.
  Qed.

  Lemma returned_dir f d a p t : extract f (map CName d) a = (t, Ok p) ->
    exists e rest n names, a = Some (e :: rest) /\ entry_names (z_name e) (n :: names) /\ p = map CName d ++ [CName n].
  Proof.
    intros H. apply extract_ok in H as (l & -> & _ & H). unfold engine_dir in H. destruct l as [|e rest]; [discriminate|].
    destruct (sanitized_name (z_name e)) as [|n names] eqn:E; [discriminate|]. inv H. exists e, rest, n, names.
    apply entry_names_iff in E. split; auto. split; auto.
    assert (S : simple_name n) by (eapply entry_simple; [exact E|left; reflexivity]).
    destruct (simple_components n S) as [C A]. unfold pjoin. rewrite A, C. reflexivity.
  Qed.

  (** *** When extraction succeeds *)
  Lemma all_fail dest l : forall f t r, extract_all f dest l = (t, r) -> r <> Ok tt ->
    exists pre e post t1 t2, l = pre ++ e :: post /\ extract_all f dest pre = (t1, Ok tt) /\
      extract_entry (apply_ops f t1) dest e = (t2, r).
  Proof.
    induction l as [|e l IH]; intros f t r H N; simpl in H; [congruence|].
    unfold seq in H. destruct (extract_entry f dest e) as [t0 r0] eqn:E. cbn [fst snd] in H.
    assert (Here : r0 = r -> exists pre e0 post t1 t2, e :: l = pre ++ e0 :: post /\ extract_all f dest pre = (t1, Ok tt) /\
      extract_entry (apply_ops f t1) dest e0 = (t2, r)).
    { intros <-. exists [], e, l, [], t0. auto. }
    destruct r0 as [[]|er|]; [|apply Here; congruence..].
    destruct (extract_all (apply_ops f t0) dest l) as [t' r'] eqn:E'. inv H.
    destruct (IH _ _ _ E' N) as (pre & e0 & post & t1 & t2 & -> & A & B).
    exists (e :: pre), e0, post, (t0 ++ t1), t2. split; auto. split.
    - simpl. unfold seq. rewrite E. cbn [fst snd]. rewrite A. reflexivity.
    - rewrite apply_ops_app. exact B.
  Qed.

  Lemma empty_after d f pre t : directory f d -> nothing_below f d -> extract_all f (map CName d) pre = (t, Ok tt) ->
    directory (apply_ops f t) d /\
    forall r, r <> [] ->
      (forall c, apply_ops f t (d ++ r) = Some (File c) -> files_of pre r) /\
      (apply_ops f t (d ++ r) = Some Dir -> dirs_of pre r).
  Proof.
    intros D Nb H. pose proof (all_trace d pre f D) as T. rewrite H in T. cbn [fst] in T.
    split; [eapply trace_directory; eauto|]. intros r Nr.
    destruct (trace_changed _ _ _ _ _ (d ++ r) T) as [E|(r' & _ & E & [(_ & B & M)|(c & B & M)])].
    - rewrite E, (Nb r Nr). split; discriminate.
    - apply app_inv_head in E as <-. rewrite B. split; [discriminate|auto].
    - apply app_inv_head in E as <-. rewrite B. split; [auto|discriminate].
  Qed.

  Lemma not_dir_name e : is_dir_name (z_name e) = false <-> ~ for_directory (z_name e).
  Proof. rewrite dir_name_iff. destruct (is_dir_name (z_name e)); split; congruence. Qed.
  Lemma names_of_iff e names : entry_names (z_name e) names <-> names_of e = names.
  Proof. apply entry_names_iff. Qed.

  Lemma clash_file e e' r : made_file e r -> is_prefix r (names_of e') ->
    (is_dir_name (z_name e') = false -> r <> names_of e') -> clash e e'.
  Proof.
    intros [Dn ->] (c & E) N. exists (names_of e), c. split; [apply not_dir_name; exact Dn|].
    split; [apply names_of_iff; reflexivity|]. split; [apply names_of_iff; exact E|].
    destruct c as [|x c]; [right|left; discriminate]. rewrite dir_name_iff. destruct (is_dir_name (z_name e')); auto.
    exfalso. apply N; auto. rewrite E, app_nil_r. reflexivity.
  Qed.
  Lemma clash_dir e e' : is_dir_name (z_name e) = false -> made_dirs e' (names_of e) -> clash e e'.
  Proof. intros Dn [P Q]. apply (clash_file e e' (names_of e)); auto. split; auto. Qed.

  Lemma all_consistent f d l : directory f d -> nothing_below f d -> (forall o, io o = true) -> consistent l ->
    snd (extract_all f (map CName d) l) = Ok tt.
  Proof.
    intros D Nb Hio (C1 & C2 & C3).
    destruct (extract_all f (map CName d) l) as [t r] eqn:E. cbn [snd].
    assert (Dec : r = Ok tt \/ r <> Ok tt) by (destruct r as [[]| |]; auto; right; discriminate).
    destruct Dec as [Dec|Dec]; auto. exfalso.
    destruct (all_fail _ _ _ _ _ E Dec) as (pre & e & post & t1 & t2 & -> & Hp & He).
    destruct (empty_after _ _ _ _ D Nb Hp) as [D1 K].
    pose proof (entry_spec (apply_ops f t1) d e D1) as S. rewrite He in S. destruct S as (_ & _ & _ & S).
    assert (Ie : In e (pre ++ e :: post)) by (apply in_elt).
    apply Dec, S; auto.
    - intros Dn. destruct (C2 e Ie) as [Cp Ne]; [apply not_dir_name; exact Dn|]. split; auto.
      assert (Nn : names_of e <> []) by (intros H; apply Ne, names_of_iff; exact H). split; auto.
      intros Hd. destruct (K _ Nn) as [_ K2]. destruct (K2 Hd) as (e' & I' & M).
      apply (C3 e e'); auto; [apply in_or_app; auto|]. apply clash_dir; auto.
    - intros r0 c Nr P Q F. destruct (K _ Nr) as [K1 _]. destruct (K1 c F) as (e' & I' & M).
      apply (C3 e' e); auto; [apply in_or_app; auto|]. eapply clash_file; eauto.
  Qed.

  Lemma succeeds_iff f d l : directory f d -> tree_like f -> nothing_below f d -> (forall o, io o = true) ->
    ((exists p, snd (extract f (map CName d) (Some l)) = Ok p) <->
     consistent l /\ exists e rest, l = e :: rest /\ ~ entry_names (z_name e) []).
  Proof.
    intros D Tr Nb Hio. split.
    - intros (p & H). destruct (extract f (map CName d) (Some l)) as [t r] eqn:E. cbn [snd] in H. subst r.
      split.
      2:{ destruct (returned_dir _ _ _ _ _ E) as (e & rest & n & names & El & En & _). inv El. exists e, rest. split; auto.
          intros En'. apply names_of_iff in En, En'. congruence. }
      pose proof E as E'. apply extract_ok in E' as (l' & El & E' & _). inv El. rename l' into l.
      pose proof (all_trace d l f D) as T. rewrite E' in T. cbn [fst] in T.
      assert (Tr' := trace_tree _ _ _ _ _ T Tr).
      assert (K : forall e, In e l -> z_readable e = true /\
        (is_dir_name (z_name e) = true -> directory (apply_ops f t) (d ++ names_of e)) /\
        (is_dir_name (z_name e) = false -> z_complete e = true /\ names_of e <> [] /\
           directory (apply_ops f t) (d ++ removelast (names_of e)) /\
           exists c, apply_ops f t (d ++ names_of e) = Some (File c))).
      { intros e I. apply in_split in I as (pre & post & El). destruct (all_ok f d l t D E' _ _ _ El) as (R & OD & OF).
        split; auto. split; auto. intros Dn. destruct (OF Dn) as (A & B & C & c & F & _). split; auto. split; auto.
        split; [|exists c; exact F]. apply directory_tree; auto. }
      split; [|split].
      + intros e I. apply K. exact I.
      + intros e I Nd. destruct (K e I) as (_ & _ & OF). destruct OF as (A & B & _); [apply not_dir_name; exact Nd|].
        split; auto. intros En. apply B, names_of_iff. exact En.
      + intros e e' I I' (names & rest & Nd & En & En' & C). apply names_of_iff in En, En'.
        destruct (K e I) as (_ & _ & OF). destruct OF as (_ & B & _ & c & F); [apply not_dir_name; exact Nd|].
        destruct (K e' I') as (_ & OD' & OF').
        assert (Dd : apply_ops f t (d ++ names_of e) = Some Dir).
        { assert (Nd' : d ++ names_of e <> []) by (intros Z; apply app_eq_nil in Z as [_ Z]; contradiction).
          destruct (is_dir_name (z_name e')) eqn:Dn'.
          - apply (OD' eq_refl (d ++ names_of e) rest); auto. rewrite En', En, app_assoc. reflexivity.
          - destruct C as [C|C]; [|apply dir_name_iff in C; congruence].
            destruct (OF' eq_refl) as (_ & _ & Pd & _). apply (Pd (d ++ names_of e) (removelast rest)); auto.
            rewrite En', En, removelast_app by exact C. apply app_assoc. }
        congruence.
    - intros (C & e & rest & -> & Ne). pose proof (all_consistent f d _ D Nb Hio C) as H.
      unfold M_Zip.extract, seq. destruct (extract_all f (map CName d) (e :: rest)) as [t r]. cbn [snd fst] in *. subst r.
      cbn [snd]. unfold engine_dir. destruct (sanitized_name (z_name e)) eqn:En; [|eauto].
      exfalso. apply Ne, names_of_iff. exact En.
  Qed.

  Lemma panics_only f d l : directory f d -> nothing_below f d -> (forall o, io o = true) ->
    snd (extract f (map CName d) (Some l)) = Panic ->
    exists e, In e l /\ ~ for_directory (z_name e) /\
      (entry_names (z_name e) [] \/ exists e', In e' l /\ (clash e e' \/ clash e' e)).
  Proof.
    intros D Nb Hio H. unfold M_Zip.extract, seq in H.
    destruct (extract_all f (map CName d) l) as [t r] eqn:E. cbn [fst snd] in H.
    assert (Er : r = Panic).
    { destruct r as [[]| |]; auto; cbn [snd] in H; [|discriminate]. exfalso. unfold engine_dir in H.
      destruct l; [discriminate|]. destruct (sanitized_name (z_name z)); discriminate. }
    subst r. destruct (all_fail _ _ _ _ _ E) as (pre & e & post & t1 & t2 & -> & Hp & He); [discriminate|].
    destruct (empty_after _ _ _ _ D Nb Hp) as [D1 K].
    pose proof (entry_spec (apply_ops f t1) d e D1) as S. rewrite He in S. destruct S as (_ & _ & S & _).
    destruct (S eq_refl) as (_ & Dn & P). exists e. split; [apply in_elt|]. split; [apply not_dir_name; exact Dn|].
    destruct (list_eq_dec (list_eq_dec N.eq_dec) (names_of e) []) as [En|Nn]; [left; apply names_of_iff; exact En|].
    right. destruct (P Hio) as [Z|[(c & Nr & F)|F]]; [contradiction| |].
    - destruct (K _ Nr) as [K1 _]. destruct (K1 c F) as (e' & I' & M). exists e'. split; [apply in_or_app; auto|]. right.
      destruct (prefix_removelast (names_of e) (removelast (names_of e))) as [Q1 Q2]; [exists []; symmetry; apply app_nil_r|exact Nn|].
      eapply clash_file; eauto.
    - destruct (K _ Nn) as [_ K2]. destruct (K2 F) as (e' & I' & M). exists e'. split; [apply in_or_app; auto|]. left.
      apply clash_dir; auto.
  Qed.

  Lemma stays_tree f d a t1 t2 : directory f d -> tree_like f -> fst (extract f (map CName d) a) = t1 ++ t2 ->
    tree_like (apply_ops f t1).
  Proof.
    intros D Tr E. destruct (extract_trace f d a D) as (MD & MF & T & _). rewrite E in T. apply trace_prefix in T.
    eapply trace_tree; eauto.
  Qed.
End Zip.
