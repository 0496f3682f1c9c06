(** Proofs for C92. *)
From Coq Require Import String List NArith ZArith Bool Arith Lia Permutation.
From Verif Require Import Base F32 M_Types M_Engine M_Det M_Lookup M_Feat M_Prob M_Features M_Filler M_Crf
  M_Cache M_Res M_Fs M_Json M_Load M_Inject M_Overlap S_Base S_Res S_Load S_Inject S_Reload S_Injections S_Overlap
  P_Base P_Load P_Names P_Inject P_Effects P_Injection S_Answer S_Made P_Made P_Reload P_Injections.
Import ListNotations.
Local Open Scope nat_scope.

(** ** Lists *)
Lemma set_nth_same {A} i (a : A) l : i < length l -> nth_error (set_nth i a l) i = Some a.
Proof. revert i. induction l as [|b l IH]; intros [|i] H; cbn in *; try lia; auto. apply IH. lia. Qed.
Lemma set_nth_other {A} i j (a : A) l : i <> j -> nth_error (set_nth i a l) j = nth_error l j.
Proof. revert i j. induction l as [|b l IH]; intros [|i] [|j] H; cbn; auto; try congruence. Qed.
Lemma set_nth_length {A} i (a : A) l : length (set_nth i a l) = length l.
Proof. revert i. induction l as [|b l IH]; intros [|i]; cbn; auto. Qed.
Lemma set_nth_twice {A} i (a b : A) l : set_nth i b (set_nth i a l) = set_nth i b l.
Proof. revert i. induction l as [|c l IH]; intros [|i]; cbn; auto. f_equal. auto. Qed.
Lemma set_nth_id {A} i (a : A) l : nth_error l i = Some a -> set_nth i a l = l.
Proof. revert i. induction l as [|c l IH]; intros [|i] H; cbn in *; try congruence. f_equal. auto. Qed.

(** ** Trees *)
Lemma apply_op_same d f f' o : same_below d f f' -> same_below d (apply_op f o) (apply_op f' o).
Proof. intros S q. specialize (S q). destruct o; cbn; [destruct (names_eqb p (d ++ q))|destruct (names_eqb p (d ++ q))|destruct (names_below p (d ++ q))]; auto. Qed.
Lemma apply_ops_same d t : forall f f', same_below d f f' -> same_below d (apply_ops f t) (apply_ops f' t).
Proof. induction t as [|o t IH]; intros f f' S; [exact S|]. apply IH, apply_op_same, S. Qed.
Lemma same_below_sym d f f' : same_below d f f' -> same_below d f' f.
Proof. intros S q. symmetry. apply S. Qed.
Lemma apply_op_apart d d' f o : apart d d' -> at_or_below d (op_path o) -> same_below d' f (apply_op f o).
Proof. intros A W. apply (apart_same d d' [o]); auto. intros o' [<-|[]]. exact W. Qed.
Lemma not_below_apart d d' q : apart d d' -> ~ at_or_below d (d' ++ q).
Proof. intros [A B] C. destruct (prefixes d d' (d' ++ q) C) as [P|P]; [exists q; reflexivity|exact (A P)|exact (B P)]. Qed.
Lemma look_cases names f seen q : look names f seen q = f q \/ look names f seen q = seen q.
Proof. unfold look. destruct (existsb (names_eqb q) names); auto. Qed.

Section Overlap.
  Context (x : Ext) (shape : str -> str) (ngrams : list str -> nat -> list str) (mx : Math) (L : Loader)
          (fo : path -> orders) (uo : path -> nat -> HashOrder) (G : Gaz).
  Notation metadata := (metadata L fo).
  Notation inject := (inject x L fo uo G).
  Notation prepare := (prepare x L fo uo G).
  Notation go := (go x shape ngrams mx L fo uo G).
  Notation act := (act x shape ngrams mx L fo uo G).
  Notation turn := (turn x shape ngrams mx L fo uo G).
  Notation run := (run x shape ngrams mx L fo uo G).
  Context (p : path) (m : Meta) (f0 : fs) (calls : list Call).
  Context (GO : gaz_ok G) (HM : metadata f0 p m) (T : tidy p m).

  (** ** What no call changes *)
  Definition away (q : list str) : Prop :=
    forall i rq e d, injects calls i rq -> requested (rq_adds rq) e -> stored G p m e d -> ~ at_or_below (resolve d) q.
  Definition calm (f : fs) : Prop := forall q, away q -> f q = f0 q.
  Definition owned (rq : Request) (d : path) : Prop := exists e, requested (rq_adds rq) e /\ stored G p m e d.
  Definition dirs_ok (rq : Request) (dirs : list (str * path)) : Prop :=
    forall e d, hget str_eqb e dirs = Some d -> requested (rq_adds rq) e /\ stored G p m e d.
  Definition fine (c : Call) (s : stage G) : Prop :=
    match c, s with
    | _, Waiting _ => True
    | _, Reading _ v => calm v
    | Loads, Loaded _ _ => True
    | Injects _ _ _ rq, Working _ dirs _ => dirs_ok rq dirs
    | Injects _ _ _ rq, Opening _ d _ dirs _ v => owned rq d /\ dirs_ok rq dirs /\ calm v
    | Injects _ _ _ rq, Removing _ rest _ d _ dirs _ => owned rq d /\ within (resolve d) rest /\ dirs_ok rq dirs
    | Injects _ _ _ rq, Writing _ rest _ dirs _ => dirs_ok rq dirs /\ exists d, owned rq d /\ within (resolve d) rest
    | Injects _ _ _ rq, Injected _ _ => True
    | _, _ => False
    end.

  Lemma calm_kept f : calm f -> kept p m f0 f.
  Proof.
    intros C. destruct T as (_ & T2 & T3). split.
    - intros q I. apply C. intros i rq e d _ _ S. apply T2; auto. eapply stored_in; eauto.
    - intros q I r. symmetry. apply C. intros i rq e d _ _ S. apply not_below_apart. apply T3; auto. eapply stored_in; eauto.
  Qed.
  Lemma calm_metadata f : calm f -> metadata f p m.
  Proof. intros C. eapply kept_metadata'; [apply calm_kept; exact C|exact HM]. Qed.
  Lemma calm_look names f v : calm f -> calm v -> calm (look names f v).
  Proof. intros A B q W. destruct (look_cases names f v q) as [->| ->]; auto. Qed.
  Lemma calm_op i rq d f o : injects calls i rq -> owned rq d -> at_or_below (resolve d) (op_path o) -> calm f -> calm (apply_op f o).
  Proof.
    intros I (e & R & S) W C q Q. rewrite <- (C q Q). change (apply_op f o) with (apply_ops f [o]).
    apply (within_other (resolve d)); [|exact (Q i rq e d I R S)]. intros o' [<-|[]]. exact W.
  Qed.

  (** One action of a call keeps this, and it changes nothing or one of its own directories. *)
  Lemma act_fine i c a f s f' s' : nth_error calls i = Some c -> fine c s -> calm f ->
    act (task_of p c) a f s = (f', s') ->
    fine c s' /\ calm f' /\
    (f' = f \/ exists o1 o2 o3 rq d o, c = Injects o1 o2 o3 rq /\ owned rq d /\ at_or_below (resolve d) (op_path o) /\ f' = apply_op f o).
  Proof.
    intros N F C H. destruct a as [|names].
    2:{ cbn in H. inv H. split; [|split; [exact C|left; reflexivity]].
        destruct c, s; cbn in *; auto; try (apply calm_look; assumption).
        destruct F as (A & B & D). split; [exact A|]. split; [exact B|]. apply calm_look; assumption. }
    cbn [M_Overlap.act] in H. destruct c as [o1 o2 o3 rq|].
    2:{ destruct s; cbn in F; try contradiction; cbn in H; inv H; cbn; auto. }
    assert (Ij : injects calls i rq) by (exists o1, o2, o3; exact N).
    destruct s as [|v|dirs todo|d vs dirs todo v|rest r d g dirs todo|rest r dirs todo|r|r]; cbn in F; try contradiction.
    - cbn in H. inv H. cbn. auto.
    - cbn in H. destruct (prepare o1 o2 _ v) as [[dirs values]|er|] eqn:E; inv H; cbn; auto. split; auto.
      destruct (prepare_ok _ _ _ _ _ _ _ _ _ _ _ _ _ _ E) as (M' & res & HM' & U & D & _).
      rewrite (metadata_unique _ _ _ _ _ _ HM' (calm_metadata v F)) in *. intros e d Hd. apply D. exact Hd.
    - destruct todo as [|[e vs] todo]; cbn in H; inv H; cbn; auto.
      destruct (hget str_eqb e dirs) as [d|] eqn:Hd; cbn; auto. split; auto. split; auto. exists e. apply F. exact Hd.
    - destruct F as (O & D & Cv). cbn in H. inv H. split; [|auto].
      destruct (gz_load G v d); cbn; auto. destruct (gz_inject G a vs true _); cbn; auto.
      split; [exact O|]. split; [|exact D]. exact (remove_within G GO f' d).
    - destruct F as (O & W & D). destruct rest as [|o rest]; cbn in H; inv H.
      + split; [|auto]. destruct r; cbn; auto. split; auto. exists d. split; auto. exact (dump_within G GO f' d g).
      + assert (Wo : at_or_below (resolve d) (op_path o)) by (apply W; left; reflexivity).
        split; [|split].
        * cbn. split; auto. split; auto. intros o' I. apply W. right. exact I.
        * eapply calm_op; eauto.
        * right. exists o1, o2, o3, rq, d, o. auto.
    - destruct F as (D & d & O & W). destruct rest as [|o rest]; cbn in H; inv H.
      + split; [|auto]. destruct r; cbn; auto.
      + assert (Wo : at_or_below (resolve d) (op_path o)) by (apply W; left; reflexivity).
        split; [|split].
        * cbn. split; auto. exists d. split; auto. intros o' I. apply W. right. exact I.
        * eapply calm_op; eauto.
        * right. exists o1, o2, o3, rq, d, o. auto.
    - cbn in H. inv H. cbn. auto.
  Qed.

  Definition inv1 (w : world G) : Prop :=
    calm (fst w) /\ length (snd w) = length calls /\
    forall i t s, nth_error (snd w) i = Some (t, s) -> exists c, nth_error calls i = Some c /\ t = task_of p c /\ fine c s.

  Lemma inv1_begun : inv1 (begun G p f0 calls).
  Proof.
    split; [intros q _; reflexivity|]. split; [apply map_length|]. intros i t s H. cbn in H.
    rewrite nth_error_map in H. destruct (nth_error calls i) as [c|]; [|discriminate]. inv H. exists c. split; auto.
    split; auto. destruct c; exact Logic.I.
  Qed.
  Lemma inv1_turn w ia : inv1 w -> inv1 (turn w ia).
  Proof.
    intros (C & Le & H). destruct w as [f l], ia as [i a]. unfold M_Overlap.turn. cbn [fst snd] in *.
    destruct (nth_error l i) as [[t s]|] eqn:E; [|split; auto].
    destruct (H i t s E) as (c & Nc & -> & F). destruct (act (task_of p c) a f s) as [f' s'] eqn:A.
    destruct (act_fine i c a f s f' s' Nc F C A) as (F' & C' & _). split; [exact C'|]. cbn [snd]. split; [rewrite set_nth_length; exact Le|].
    intros j t' s'' Hj. destruct (Nat.eq_dec i j) as [->|Ne].
    - rewrite set_nth_same in Hj by (apply nth_error_Some; congruence). inv Hj. exists c. auto.
    - rewrite set_nth_other in Hj by exact Ne. apply H. exact Hj.
  Qed.
  Lemma inv1_run sched : forall w, inv1 w -> inv1 (run w sched).
  Proof. induction sched as [|ia sched IH]; intros w H; [exact H|]. apply IH. apply inv1_turn. exact H. Qed.

  Lemma overlap_elsewhere sched q : away q -> fst (run (begun G p f0 calls) sched) q = f0 q.
  Proof. intros A. destruct (inv1_run sched _ inv1_begun) as (C & _). apply C. exact A. Qed.
  Lemma overlap_others sched d :
    (forall i rq e d', injects calls i rq -> requested (rq_adds rq) e -> stored G p m e d' -> apart (resolve d') (resolve d)) ->
    gz_load G (fst (run (begun G p f0 calls) sched)) d = gz_load G f0 d.
  Proof.
    intros A. apply (load_local G GO). intros q. apply overlap_elsewhere. intros i rq e d' I R S. apply not_below_apart. eapply A; eauto.
  Qed.

  (** ** Injections of distinct entities *)
  Section Distinct.
  Context (DI : distinct calls) (en : Engine) (EN : from_path x shape ngrams mx L fo uo f0 p = Ok en) (NS : names_stay L f0 p m).

  (** The entity [e] after the injection of [rq]. *)
  Definition new_values (rq : Request) (f : fs) (e : str) (d : path) : Prop :=
    updated G x m (stemmer_of en (given_to rq e)) (rq_vanilla rq) (rq_adds rq) f0 f e d.
  Definition handed_to (rq : Request) (e : str) (vs : list GValue) : Prop :=
    handed x m (stemmer_of en (given_to rq e)) e (values_of (rq_adds rq) e) vs.
  (** The requested entities other than [cur]: those still to be done are as they were, the others
      have their new values. *)
  Definition progress (rq : Request) (todo : list (str * list GValue)) (cur : option str) (f : fs) : Prop :=
    NoDup (hkeys todo) /\ (forall e, cur = Some e -> ~ In e (hkeys todo)) /\
    (forall e vs, In (e, vs) todo -> requested (rq_adds rq) e /\ handed_to rq e vs) /\
    (forall e d, requested (rq_adds rq) e -> stored G p m e d -> Some e <> cur ->
       (In e (hkeys todo) -> same_below (resolve d) f0 f) /\ (~ In e (hkeys todo) -> new_values rq f e d)).
  (** The directories of all requested entities are known. *)
  Definition dirs_all (rq : Request) (dirs : list (str * path)) : Prop :=
    forall e d, hget str_eqb e dirs = Some d <-> requested (rq_adds rq) e /\ stored G p m e d.
  Definition all_stored (rq : Request) : Prop := forall e, requested (rq_adds rq) e -> exists d, stored G p m e d.
  Definition good (rq : Request) (s : stage G) (f : fs) : Prop :=
    match s with
    | Waiting _ | Reading _ _ => forall e d, requested (rq_adds rq) e -> stored G p m e d -> same_below (resolve d) f0 f
    | Working _ dirs todo => dirs_all rq dirs /\ all_stored rq /\ progress rq todo None f
    | Opening _ d vs dirs todo v =>
        dirs_all rq dirs /\ all_stored rq /\
        exists e, requested (rq_adds rq) e /\ stored G p m e d /\ handed_to rq e vs /\ progress rq todo (Some e) f /\
          same_below (resolve d) f0 v /\ same_below (resolve d) f0 f
    | Removing _ rest r d g' dirs todo =>
        dirs_all rq dirs /\ all_stored rq /\
        exists e vs g f1, requested (rq_adds rq) e /\ stored G p m e d /\ handed_to rq e vs /\ progress rq todo (Some e) f /\
          gz_load G f0 d = Ok g /\ gz_inject G g vs true (rq_vanilla rq) = Ok g' /\ r = snd (gz_remove G f1 d) /\
          same_below (resolve d) (apply_ops f1 (fst (gz_remove G f1 d))) (apply_ops f rest)
    | Writing _ rest r dirs todo =>
        dirs_all rq dirs /\ all_stored rq /\
        exists e d vs g g' f1, requested (rq_adds rq) e /\ stored G p m e d /\ handed_to rq e vs /\ progress rq todo (Some e) f /\
          gz_load G f0 d = Ok g /\ gz_inject G g vs true (rq_vanilla rq) = Ok g' /\ r = snd (gz_dump G f1 d g') /\
          gone f1 (resolve d) /\ within (resolve d) rest /\
          same_below (resolve d) (apply_ops f1 (fst (gz_dump G f1 d g'))) (apply_ops f rest)
    | Injected _ (Ok _) => all_stored rq /\ forall e d, requested (rq_adds rq) e -> stored G p m e d -> new_values rq f e d
    | Injected _ _ =>
        exists cur, forall e d, requested (rq_adds rq) e -> stored G p m e d -> Some e <> cur ->
          same_below (resolve d) f0 f \/ new_values rq f e d
    | Loaded _ _ => True
    end.

  Lemma new_values_same rq f f' e d : same_below (resolve d) f f' -> new_values rq f e d -> new_values rq f' e d.
  Proof.
    intros S (g & vs & g' & A & B & C & D). exists g, vs, g'. split; [exact A|]. split; [exact B|]. split; [exact C|].
    rewrite <- D. symmetry. apply (load_local G GO). exact S.
  Qed.
  Lemma progress_same rq todo cur f f' :
    (forall e d, requested (rq_adds rq) e -> stored G p m e d -> Some e <> cur -> same_below (resolve d) f f') ->
    progress rq todo cur f -> progress rq todo cur f'.
  Proof.
    intros S (A & B & C & D). split; [exact A|]. split; [exact B|]. split; [exact C|]. intros e d R Sd N.
    destruct (D e d R Sd N) as [D1 D2]. split; intros J.
    - eapply same_below_trans; [exact (D1 J)|]. eauto.
    - eapply new_values_same; eauto.
  Qed.
  (** The other calls do not matter. *)
  Lemma good_same rq s f f' :
    (forall e d, requested (rq_adds rq) e -> stored G p m e d -> same_below (resolve d) f f') -> good rq s f -> good rq s f'.
  Proof.
    intros S. destruct s as [|v|dirs todo|d vs dirs todo v|rest r d g dirs todo|rest r dirs todo|r|r]; cbn.
    - intros H e d R Sd. eapply same_below_trans; eauto.
    - intros H e d R Sd. eapply same_below_trans; eauto.
    - intros (A & B & C). split; [exact A|]. split; [exact B|]. eapply progress_same; [|exact C]. eauto.
    - intros (A & B & e & R & Sd & Hh & P & V & F). split; [exact A|]. split; [exact B|]. exists e.
      split; [exact R|]. split; [exact Sd|]. split; [exact Hh|]. split; [eapply progress_same; [|exact P]; eauto|].
      split; [exact V|]. eapply same_below_trans; eauto.
    - intros (A & B & e & vs & g0 & f1 & R & Sd & Hh & P & E1 & E2 & E3 & E4). split; [exact A|]. split; [exact B|]. exists e, vs, g0, f1.
      split; [exact R|]. split; [exact Sd|]. split; [exact Hh|]. split; [eapply progress_same; [|exact P]; eauto|].
      split; [exact E1|]. split; [exact E2|]. split; [exact E3|]. eapply same_below_trans; [exact E4|]. apply apply_ops_same. eauto.
    - intros (A & B & e & d & vs & g0 & g' & f1 & R & Sd & Hh & P & E1 & E2 & E3 & E4 & W & E5). split; [exact A|]. split; [exact B|].
      exists e, d, vs, g0, g', f1.
      split; [exact R|]. split; [exact Sd|]. split; [exact Hh|]. split; [eapply progress_same; [|exact P]; eauto|].
      split; [exact E1|]. split; [exact E2|]. split; [exact E3|]. split; [exact E4|]. split; [exact W|]. eapply same_below_trans; [exact E5|]. apply apply_ops_same. eauto.
    - destruct r as [u| |].
      + intros [A B]. split; [exact A|]. intros e d R Sd. eapply new_values_same; eauto.
      + intros (cur & H). exists cur. intros e0 d R Sd N. destruct (H e0 d R Sd N) as [E|E]; [left|right].
        * eapply same_below_trans; eauto.
        * eapply new_values_same; eauto.
      + intros (cur & H). exists cur. intros e0 d R Sd N. destruct (H e0 d R Sd N) as [E|E]; [left|right].
        * eapply same_below_trans; eauto.
        * eapply new_values_same; eauto.
    - auto.
  Qed.

  Lemma progress_either rq todo cur f e d : progress rq todo cur f -> requested (rq_adds rq) e -> stored G p m e d -> Some e <> cur ->
    same_below (resolve d) f0 f \/ new_values rq f e d.
  Proof.
    intros (_ & _ & _ & D) R Sd N. destruct (D e d R Sd N) as [A B].
    destruct (in_dec (list_eq_dec N.eq_dec) e (hkeys todo)) as [J|J]; auto.
  Qed.
  Lemma good_bad rq todo cur f (r : outcome unit) : r <> Ok tt -> progress rq todo cur f -> good rq (Injected _ r) f.
  Proof.
    intros N P. destruct r as [[]| |]; [contradiction| |]; exists cur; intros e0 d R Sd Ne; eapply progress_either; eauto.
  Qed.

  Lemma act_good i o1 o2 o3 rq a f s f' s' : nth_error calls i = Some (Injects o1 o2 o3 rq) ->
    fine (Injects o1 o2 o3 rq) s -> calm f -> good rq s f ->
    act (task_of p (Injects o1 o2 o3 rq)) a f s = (f', s') -> good rq s' f'.
  Proof.
    intros N F C Gd H. destruct a as [|names].
    2:{ cbn in H. inv H. destruct s; auto. destruct Gd as (A & B & e & R & Sd & Hh & P & V & F').
        split; [exact A|]. split; [exact B|]. exists e. repeat (split; [assumption|]). split; [|exact F'].
        intros q. destruct (look_cases names f' seen (resolve d ++ q)) as [->| ->]; auto. }
    cbn [M_Overlap.act] in H.
    destruct s as [|v|dirs todo|d vs dirs todo v|rest r d g' dirs todo|rest r dirs todo|r|r].
    - cbn in H. inv H. exact Gd.
    - cbn in H. destruct (prepare o1 o2 _ v) as [[dirs values]|er|] eqn:E; inv H.
      + destruct (prepare_ok _ _ _ _ _ _ _ _ _ _ _ _ _ _ E) as (M' & res & HM' & U & D & St & ND & V & X).
        rewrite (metadata_unique _ _ _ _ _ _ HM' (calm_metadata v F)) in *. clear M' HM'.
        assert (Se : rs_stemmer res = stemmer_of en (mkGiven [] (rq_vanilla rq) (rq_resources rq))).
        { unfold stemmer_of. cbn [gv_resources]. unfold resources_used in U. destruct (rq_resources rq) as [r'|]; [rewrite U; reflexivity|].
          exact (stemmer_same x shape ngrams mx L fo uo p m f0 v en res HM NS (calm_kept v F) EN U). }
        split; [exact D|]. split; [exact St|]. split; [|split; [|split]].
        * unfold hkeys. eapply Permutation_NoDup; [apply Permutation_map; apply reorder_perm|]. exact ND.
        * discriminate.
        * intros e vs J. apply (proj1 (reorder_In _ _ _)) in J. apply V in J as [R Hh]. split; [exact R|].
          unfold handed_to. change (stemmer_of en (given_to rq e)) with (stemmer_of en (mkGiven [] (rq_vanilla rq) (rq_resources rq))).
          rewrite <- Se. exact Hh.
        * intros e d R Sd _. split; intros J; [exact (Gd e d R Sd)|]. exfalso. apply J.
          destruct (X e R) as (vs & Iv). unfold hkeys. apply in_map_iff. exists (e, vs). split; auto. apply reorder_In. exact Iv.
      + exists None. intros e d R Sd _. left. exact (Gd e d R Sd).
      + exists None. intros e d R Sd _. left. exact (Gd e d R Sd).
    - destruct Gd as (A & B & P). destruct todo as [|[e vs] todo]; cbn in H; inv H.
      + split; [exact B|]. intros e d R Sd. apply P; auto. discriminate.
      + destruct P as (ND & _ & Hh & P).
        assert (P' : progress rq todo (Some e) f').
        { inv ND. split; [assumption|]. split; [intros e1 E1; inv E1; assumption|].
          split; [intros e1 vs1 J; apply Hh; right; exact J|]. intros e1 d R Sd Ne. destruct (P e1 d R Sd) as [P1 P2]; [discriminate|].
          split; intros J; [apply P1; right; exact J|]. apply P2. intros [J1|J1]; [|contradiction]. cbn in J1. congruence. }
        destruct (Hh e vs (or_introl eq_refl)) as [R Ha].
        destruct (hget str_eqb e dirs) as [d|] eqn:Hd.
        * apply A in Hd as [_ Sd]. split; [exact A|]. split; [exact B|]. exists e. repeat (split; [assumption|]).
          destruct (P e d R Sd) as [P1 _]; [discriminate|]. split; apply P1; left; reflexivity.
        * eapply good_bad; [discriminate|exact P'].
    - destruct Gd as (A & B & e & R & Sd & Ha & P & V & Sf). cbn in H. inv H.
      rewrite <- (load_local G GO f0 v d V). rewrite request_vanilla.
      destruct (gz_load G f0 d) as [g| |] eqn:E1; [|eapply good_bad; [discriminate|exact P]..].
      destruct (gz_inject G g vs true (rq_vanilla rq)) as [g'| |] eqn:E2; [|eapply good_bad; [discriminate|exact P]..].
      split; [exact A|]. split; [exact B|]. exists e, vs, g, f'. repeat (split; [assumption|]). split; [reflexivity|]. apply same_below_refl.
    - destruct Gd as (A & B & e & vs & g & f1 & R & Sd & Ha & P & E1 & E2 & E3 & E4). destruct rest as [|o rest]; cbn in H; inv H.
      + destruct (snd (gz_remove G f1 d)) as [[]| |] eqn:Er; [|eapply good_bad; [discriminate|exact P]..].
        split; [exact A|]. split; [exact B|]. exists e, d, vs, g, g', f'. repeat (split; [assumption|]). split; [reflexivity|].
        split; [|split; [exact (dump_within G GO f' d g')|apply same_below_refl]]. intros q. cbn in E4. rewrite <- (E4 q). apply (remove_done G GO f1 d Er q).
      + destruct F as (_ & W & _). assert (Wo : at_or_below (resolve d) (op_path o)) by (apply W; left; reflexivity).
        split; [exact A|]. split; [exact B|]. exists e, vs, g, f1. split; [exact R|]. split; [exact Sd|]. split; [exact Ha|].
        split; [|repeat (split; [first [assumption|reflexivity]|]); exact E4].
        eapply progress_same; [|exact P]. intros e1 d1 R1 S1 Ne. apply (apply_op_apart (resolve d)); [|exact Wo].
        apply (tidy_apart G p m e e1 d d1 T Sd S1). congruence.
    - destruct Gd as (A & B & e & d & vs & g & g' & f1 & R & Sd & Ha & P & E1 & E2 & E3 & E4 & W & E5). destruct rest as [|o rest]; cbn in H; inv H.
      + cbn [apply_ops fold_left] in E5. destruct (snd (gz_dump G f1 d g')) as [[]| |] eqn:Er; cbn [internal]; [|eapply good_bad; [discriminate|exact P]..].
        split; [exact A|]. split; [exact B|]. destruct P as (ND & NC & Hh & P).
        split; [exact ND|]. split; [discriminate|]. split; [exact Hh|]. intros e1 d1 R1 S1 _.
        destruct (list_eq_dec N.eq_dec e1 e) as [->|Ne].
        * split; intros J; [exfalso; exact (NC e eq_refl J)|]. rewrite (stored_unique G p m e d1 d S1 Sd). exists g, vs, g'. repeat (split; [assumption|]).
          rewrite <- (load_local G GO _ f' d E5). apply (dump_done G GO); assumption.
        * apply (P e1 d1 R1 S1). congruence.
      + assert (Wo : at_or_below (resolve d) (op_path o)) by (apply W; left; reflexivity).
        split; [exact A|]. split; [exact B|]. exists e, d, vs, g, g', f1. split; [exact R|]. split; [exact Sd|]. split; [exact Ha|].
        split.
        { eapply progress_same; [|exact P]. intros e1 d1 R1 S1 Ne. apply (apply_op_apart (resolve d)); [|exact Wo].
          apply (tidy_apart G p m e e1 d d1 T Sd S1). congruence. }
        split; [exact E1|]. split; [exact E2|]. split; [reflexivity|]. split; [exact E4|].
        split; [intros o' J; apply W; right; exact J|exact E5].
    - cbn in H. inv H. exact Gd.
    - contradiction.
  Qed.

  Definition inv2 (w : world G) : Prop :=
    inv1 w /\ forall i rq s, injects calls i rq -> stage_at G w i s -> good rq s (fst w).
  Lemma inv2_begun : inv2 (begun G p f0 calls).
  Proof.
    split; [apply inv1_begun|]. intros i rq s (o1 & o2 & o3 & N) (t & H). cbn in H. rewrite nth_error_map, N in H. inv H.
    intros e d _ _. apply same_below_refl.
  Qed.
  Lemma inv2_turn w ia : inv2 w -> inv2 (turn w ia).
  Proof.
    intros [I1 H2]. split; [apply inv1_turn; exact I1|]. destruct I1 as (C & Le & H1). destruct w as [f l], ia as [i a].
    unfold M_Overlap.turn. cbn [fst snd] in *. destruct (nth_error l i) as [[t s]|] eqn:E; [|exact H2].
    destruct (H1 i t s E) as (c & Nc & -> & F). destruct (act (task_of p c) a f s) as [f' s'] eqn:A.
    destruct (act_fine i c a f s f' s' Nc F C A) as (F' & C' & Ch). cbn [fst snd].
    intros j rq s'' Ij (t' & Hj). cbn [snd] in Hj. destruct (Nat.eq_dec i j) as [->|Ne].
    - rewrite set_nth_same in Hj by (apply nth_error_Some; congruence). inv Hj.
      destruct Ij as (o1 & o2 & o3 & N). rewrite N in Nc. inv Nc.
      eapply (act_good j); [exact N|exact F|exact C| |exact A]. apply (H2 j rq s); [exists o1, o2, o3; exact N|]. eexists. exact E.
    - rewrite set_nth_other in Hj by exact Ne.
      assert (Gj : good rq s'' f) by (apply (H2 j rq s'' Ij); exists t'; exact Hj).
      destruct Ch as [->|(o1 & o2 & o3 & rq1 & d & o & -> & (e & R & Sd) & W & ->)]; [exact Gj|].
      eapply good_same; [|exact Gj]. intros e1 d1 R1 S1. apply (apply_op_apart (resolve d)); [|exact W].
      apply (tidy_apart G p m e e1 d d1 T Sd S1). intros ->. apply Ne.
      apply (DI i j rq1 rq e1); auto. exists o1, o2, o3. exact Nc.
  Qed.
  Lemma inv2_run sched : forall w, inv2 w -> inv2 (run w sched).
  Proof. induction sched as [|ia sched IH]; intros w H; [exact H|]. apply IH. apply inv2_turn. exact H. Qed.

  Lemma overlap_injected sched i rq : injects calls i rq -> stage_at G (run (begun G p f0 calls) sched) i (Injected G (Ok tt)) ->
    forall e, requested (rq_adds rq) e -> exists d, stored G p m e d /\ new_values rq (fst (run (begun G p f0 calls) sched)) e d.
  Proof.
    intros I S e R. destruct (inv2_run sched _ inv2_begun) as [_ H]. destruct (H i rq _ I S) as [A B].
    destruct (A e R) as (d & Sd). exists d. split; auto.
  Qed.
  Lemma overlap_anytime sched i rq : injects calls i rq ->
    exists cur, forall e d, requested (rq_adds rq) e -> stored G p m e d -> Some e <> cur ->
      same_below (resolve d) f0 (fst (run (begun G p f0 calls) sched)) \/ new_values rq (fst (run (begun G p f0 calls) sched)) e d.
  Proof.
    intros I. destruct (inv2_run sched _ inv2_begun) as [(_ & Le & _) H].
    set (w := run (begun G p f0 calls) sched) in *.
    assert (Fi : forall t s, nth_error (snd w) i = Some (t, s) -> exists c, nth_error calls i = Some c /\ t = task_of p c /\ fine c s).
    { destruct (inv1_run sched _ inv1_begun) as (_ & _ & H1). apply H1. }
    destruct (nth_error (snd w) i) as [[t s]|] eqn:E.
    2:{ exfalso. apply nth_error_None in E. destruct I as (o1 & o2 & o3 & N).
        assert (i < length calls) by (apply nth_error_Some; congruence). lia. }
    specialize (H i rq s I (ex_intro _ t E)). clearbody w.
    destruct s as [|v|dirs todo|d vs dirs todo v|rest r d g' dirs todo|rest r dirs todo|r|r].
    - exists None. intros e d R Sd _. left. exact (H e d R Sd).
    - exists None. intros e d R Sd _. left. exact (H e d R Sd).
    - destruct H as (_ & _ & P). exists None. intros e d R Sd Ne. eapply progress_either; eauto.
    - destruct H as (_ & _ & e & _ & _ & _ & P & _). exists (Some e). intros e1 d1 R Sd Ne. eapply progress_either; eauto.
    - destruct H as (_ & _ & e & vs & g & f1 & _ & _ & _ & P & _). exists (Some e). intros e1 d1 R Sd Ne. eapply progress_either; eauto.
    - destruct H as (_ & _ & e & d & vs & g & g' & f1 & _ & _ & _ & P & _). exists (Some e). intros e1 d1 R Sd Ne. eapply progress_either; eauto.
    - destruct r as [u| |]; [|exact H..]. destruct H as [_ H]. exists None. intros e d R Sd _. right. exact (H e d R Sd).
    - exfalso. destruct (Fi _ _ eq_refl) as (c & Nc & _ & F). destruct I as (o1 & o2 & o3 & N). rewrite N in Nc. inv Nc. exact F.
  Qed.

  (** ** As if one after the other *)
  Definition gives (e : str) (rq : Request) : list Given :=
    match values_of (rq_adds rq) e with [] => [] | vs => [mkGiven vs (rq_vanilla rq) (rq_resources rq)] end.
  Lemma gives_yes e rq : requested (rq_adds rq) e -> gives e rq = [given_to rq e].
  Proof. intros R. unfold gives, given_to. destruct (values_of (rq_adds rq) e) eqn:E; [|reflexivity]. apply values_of_nil in E. contradiction. Qed.
  Lemma gives_no e rq : ~ requested (rq_adds rq) e -> gives e rq = [].
  Proof. intros R. apply values_of_nil in R. unfold gives. rewrite R. reflexivity. Qed.
  Lemma given_flat e (l : list (Request * bool)) : given e l = flat_map (gives e) (map fst l).
  Proof. unfold given. induction l as [|a l IH]; [reflexivity|]. cbn [flat_map map]. rewrite IH. reflexivity. Qed.
  Lemma requests_in cs rq : In rq (requests cs) <-> exists i, injects cs i rq.
  Proof.
    split.
    - unfold requests. rewrite in_flat_map. intros (c & I & J). destruct c as [o1 o2 o3 rq'|]; [|destruct J]. destruct J as [<-|[]].
      apply In_nth_error in I as (i & N). exists i, o1, o2, o3. exact N.
    - intros (i & o1 & o2 & o3 & N). unfold requests. rewrite in_flat_map. exists (Injects o1 o2 o3 rq). split; [eapply nth_error_In; eauto|left; reflexivity].
  Qed.
  Lemma gives_none e l : (forall rq, In rq l -> ~ requested (rq_adds rq) e) -> flat_map (gives e) l = [].
  Proof. induction l as [|rq l IH]; intros H; [reflexivity|]. cbn. rewrite gives_no by (apply H; left; reflexivity). apply IH. intros rq' J. apply H. right. exact J. Qed.
  Lemma distinct_tail c cs : distinct (c :: cs) -> distinct cs.
  Proof.
    intros D i j ri rj e (o1 & o2 & o3 & A) (q1 & q2 & q3 & B) R R'.
    assert (Datatypes.S i = Datatypes.S j) as E; [|congruence].
    apply (D (Datatypes.S i) (Datatypes.S j) ri rj e); [exists o1, o2, o3; exact A|exists q1, q2, q3; exact B|exact R|exact R'].
  Qed.
  Lemma gives_one e cs : distinct cs -> forall i rq, injects cs i rq -> requested (rq_adds rq) e ->
    flat_map (gives e) (requests cs) = [given_to rq e].
  Proof.
    induction cs as [|c cs IH]; intros D i rq (o1 & o2 & o3 & N) R; [destruct i; discriminate|].
    destruct i as [|i]; cbn in N.
    - inv N. cbn. rewrite (gives_yes e rq R), gives_none; [reflexivity|]. intros rq' J R'. apply requests_in in J as (j & q1 & q2 & q3 & J).
      assert (0 = Datatypes.S j) as X; [|discriminate].
      apply (D 0 (Datatypes.S j) rq rq' e); auto; [exists o1, o2, o3; reflexivity|exists q1, q2, q3; exact J].
    - unfold requests. cbn [flat_map]. rewrite flat_map_app. fold (requests cs).
      rewrite (IH (distinct_tail _ _ D) i rq (ex_intro _ o1 (ex_intro _ o2 (ex_intro _ o3 N))) R).
      destruct c as [q1 q2 q3 rq'|]; [|reflexivity]. cbn. rewrite gives_no; [reflexivity|]. intros R'.
      assert (0 = Datatypes.S i) as X; [|discriminate].
      apply (D 0 (Datatypes.S i) rq' rq e); auto; [exists q1, q2, q3; reflexivity|exists o1, o2, o3; exact N].
  Qed.

  Lemma classic_requested e : (exists i rq, injects calls i rq /\ requested (rq_adds rq) e) \/
    ~ (exists i rq, injects calls i rq /\ requested (rq_adds rq) e).
  Proof.
    assert (K : forall l : list Request, (exists rq, In rq l /\ requested (rq_adds rq) e) \/ ~ (exists rq, In rq l /\ requested (rq_adds rq) e)).
    { induction l as [|rq l [IH|IH]]; [right; intros (rq & [] & _)|left; destruct IH as (rq' & I & R); exists rq'; split; [right; exact I|exact R]|].
      destruct (requested_dec (rq_adds rq) e) as [R|R]; [left; exists rq; split; [left; reflexivity|exact R]|].
      right. intros (rq' & [<-|I] & R'); [contradiction|]. apply IH. eauto. }
    destruct (K (requests calls)) as [(rq & I & R)|N].
    - left. apply requests_in in I as (i & I). eauto.
    - right. intros (i & rq & I & R). apply N. exists rq. split; [apply requests_in; eauto|exact R].
  Qed.

  Lemma serial_parser sched l f' e d :
    (forall i rq, injects calls i rq -> stage_at G (run (begun G p f0 calls) sched) i (Injected G (Ok tt))) ->
    happened x L fo uo G p f0 l f' -> all_done l -> Permutation (map fst l) (requests calls) ->
    In (e, d) (keyed p m) -> gz_load G (fst (run (begun G p f0 calls) sched)) d = gz_load G f' d.
  Proof.
    intros A H D P I. pose proof T as (F & _). rewrite <- keyed_listed in F.
    destruct (classic_requested e) as [(i & rq & Ii & R)|N].
    - destruct (overlap_injected sched i rq Ii (A i rq Ii) e R) as (d' & Sd & g & vs & g' & A1 & A2 & A3 & A4).
      destruct (keyed_apart _ _ _ F (stored_keyed G _ _ _ _ Sd) I) as [Q|Q].
      + inv Q. rewrite A4.
        assert (Ge : given e l = [given_to rq e]).
        { rewrite given_flat. apply Permutation_length_1_inv. rewrite <- (gives_one e calls DI i rq Ii R).
          apply Permutation_sym. apply Permutation_flat_map. exact P. }
        destruct (values x shape ngrams mx L fo uo G p m f0 en l f' e d GO HM T NS EN H Sd) as [[E0 _]|(g1 & g2 & B1 & B2 & B3)].
        * intros rq' J. specialize (D rq' false J). discriminate.
        * congruence.
        * rewrite Ge in B3. inversion B3 as [|gv l0 ga vs' g3 gb C1 C2 C3]; subst. inversion C3; subst.
          cbn [gv_values gv_vanilla given_to] in C1, C2.
          rewrite (handed_unique x p m _ _ _ _ _ C1 A2) in C2. congruence.
      + assert (K : forall j rj e1 d1, injects calls j rj -> requested (rq_adds rj) e1 -> stored G p m e1 d1 -> apart (resolve d1) (resolve d)).
        { intros j rj e1 d1 _ _ S1. destruct (keyed_apart _ _ _ F (stored_keyed G _ _ _ _ S1) I) as [X|X]; [|exact X].
          inv X. exfalso. rewrite (stored_unique G p m e d d' S1 Sd) in Q. exact (apart_irrefl _ Q). }
        rewrite (overlap_others sched d K). symmetry. eapply (unchanged_parser x L fo uo G p m f0 l f' d); eauto.
        intros rq1 b e1 d1 J R1 S1. apply (in_map fst) in J. apply (Permutation_in _ P) in J. apply requests_in in J as (j & J). eapply K; eauto.
    - assert (K : forall j rj e1 d1, injects calls j rj -> requested (rq_adds rj) e1 -> stored G p m e1 d1 -> apart (resolve d1) (resolve d)).
      { intros j rj e1 d1 Ij R1 S1. destruct (keyed_apart _ _ _ F (stored_keyed G _ _ _ _ S1) I) as [X|X]; [|exact X].
        inv X. exfalso. apply N. eauto. }
      rewrite (overlap_others sched d K). symmetry. eapply (unchanged_parser x L fo uo G p m f0 l f' d); eauto.
      intros rq1 b e1 d1 J R1 S1. apply (in_map fst) in J. apply (Permutation_in _ P) in J. apply requests_in in J as (j & J). eapply K; eauto.
  Qed.
  Lemma overlap_serial make mkb sched l f' : assembled L G make mkb -> taggers_local L ->
    (forall i rq, injects calls i rq -> stage_at G (run (begun G p f0 calls) sched) i (Injected G (Ok tt))) ->
    happened x L fo uo G p f0 l f' -> all_done l -> Permutation (map fst l) (requests calls) ->
    exists en', from_path x shape ngrams mx L fo uo f' p = Ok en' /\
      from_path x shape ngrams mx L fo uo (fst (run (begun G p f0 calls) sched)) p = Ok en'.
  Proof.
    intros AS TL A H D P.
    destruct (still_loads_all x shape ngrams mx L fo uo G make mkb p m f0 en l f' GO AS TL HM T NS H D EN) as (en1 & E1 & _).
    exists en1. split; [exact E1|].
    assert (C : calm (fst (run (begun G p f0 calls) sched))) by (destruct (inv1_run sched _ inv1_begun) as (C & _); exact C).
    refine (engine_by_parsers x shape ngrams mx L fo uo G make mkb p m f0 f' _ en1 AS TL HM NS (happened_kept x L fo uo G p m f0 l f' GO T H HM) (calm_kept _ C) _ E1).
    intros e d I. symmetry. eapply serial_parser; eauto.
  Qed.

  (** ** Resources given and working files: no failure *)
  Definition failed (s : stage G) : Prop := exists r, s = Injected G r /\ r <> Ok tt.
  Context (i : nat) (rq : Request) (Ii : injects calls i rq) (res : Resources) (RS : rq_resources rq = Some res)
    (US : cu_usage (me_custom m) = WithoutStems \/ exists st, rs_stemmer res = Some st)
    (ST : forall e, requested (rq_adds rq) e -> exists d g, stored G p m e d /\ gz_load G f0 d = Ok g)
    (GI : forall g vs, exists g', gz_inject G g vs true (rq_vanilla rq) = Ok g')
    (GR : forall f d, snd (gz_remove G f d) = Ok tt) (GD : forall f d g, snd (gz_dump G f d g) = Ok tt).

  Lemma prepare_total o1 o2 v : metadata v p m ->
    exists dirs values, prepare o1 o2 (request p (rq_adds rq) (rq_vanilla rq) (rq_resources rq)) v = Ok (dirs, values).
  Proof.
    intros HV. rewrite (prepare_unfold x L fo uo G _ _ _ _ _ _ _ _ HV), RS.
    assert (Dd : exists dirs, get_entity_dirs G o1 (ei_of p m) (bi_of p m) (fst (ci_of p m))
                   (ij_values (request p (rq_adds rq) (rq_vanilla rq) (Some res))) = Ok dirs).
    { unfold get_entity_dirs. apply mapM_total. intros e I. apply (proj1 (reorder_In _ _ _)) in I.
      apply request_keys in I. destruct (ST e I) as (d & g & Sd & _). apply entity_dir_iff in Sd. rewrite Sd. simpl. eauto. }
    destruct Dd as (dirs & ->). cbn [bind].
    match goal with |- context [mapM ?F ?l] => assert (V : exists values, mapM F l = Ok values) end.
    { apply mapM_total. intros [e vs] _. cbv zeta. cbn [fst snd]. destruct (smem e (ei_custom (ei_of p m))); [|eauto].
      destruct (stem_total x (me_lang m) _ _ vs US) as (vs' & ->). simpl. eauto. }
    destruct V as (values & ->). simpl. eauto.
  Qed.
  Lemma act_unfailed o1 o2 o3 a f s f' s' : fine (Injects o1 o2 o3 rq) s -> good rq s f -> ~ failed s ->
    act (task_of p (Injects o1 o2 o3 rq)) a f s = (f', s') -> ~ failed s'.
  Proof.
    intros F Gd Nf H (r' & -> & Nr). destruct a as [|names].
    2:{ cbn in H. inversion H as [[Hf Hs]]. destruct s; try discriminate. inv Hs. apply Nf. exists r'. auto. }
    cbn [M_Overlap.act] in H.
    destruct s as [|v|dirs todo|d vs dirs todo v|rest r d g' dirs todo|rest r dirs todo|r|r]; cbn in H.
    - discriminate.
    - destruct (prepare_total o1 o2 v (calm_metadata v F)) as (dirs & values & E). rewrite E in H. discriminate.
    - destruct todo as [|[e vs] todo]; [inv H; congruence|]. destruct Gd as (A & _ & (_ & _ & Hh & _)).
      destruct (Hh e vs (or_introl eq_refl)) as [R _]. destruct (ST e R) as (d & g & Sd & _).
      rewrite (proj2 (A e d) (conj R Sd)) in H. discriminate.
    - destruct Gd as (_ & _ & e & R & Sd & _ & _ & V & _). destruct (ST e R) as (d' & g & Sd' & Lg).
      rewrite (stored_unique G p m e d' d Sd' Sd) in Lg. rewrite <- (load_local G GO f0 v d V), Lg, request_vanilla in H.
      destruct (GI g vs) as (g' & Eg). rewrite Eg in H. discriminate.
    - destruct Gd as (_ & _ & e & vs & g & f1 & _ & _ & _ & _ & _ & _ & E3 & _). destruct rest; [|discriminate]. rewrite E3, GR in H. discriminate.
    - destruct Gd as (_ & _ & e & d & vs & g & g' & f1 & _ & _ & _ & _ & _ & _ & E3 & _). destruct rest; [|discriminate]. rewrite E3, GD in H. discriminate.
    - inv H. apply Nf. exists r'. auto.
    - discriminate.
  Qed.
  Lemma overlap_unhindered sched r : stage_at G (run (begun G p f0 calls) sched) i (Injected G r) -> r = Ok tt.
  Proof.
    assert (K : forall sched w, inv2 w -> (forall s, stage_at G w i s -> ~ failed s) -> forall s, stage_at G (run w sched) i s -> ~ failed s).
    { clear sched. induction sched as [|[j a] sched IH]; intros w I2 H; [exact H|]. cbn [M_Overlap.run fold_left].
      apply IH; [apply inv2_turn; exact I2|]. intros s (t & Hs). destruct I2 as [(C & Le & H1) H2]. destruct w as [f l].
      unfold M_Overlap.turn in Hs. cbn [fst snd] in *. destruct (nth_error l j) as [[t1 s1]|] eqn:E; [|apply (H s); exists t; exact Hs].
      destruct (H1 j t1 s1 E) as (c & Nc & -> & F). destruct (act (task_of p c) a f s1) as [f' s'] eqn:A. cbn [snd] in Hs.
      destruct (Nat.eq_dec j i) as [->|Ne].
      - rewrite set_nth_same in Hs by (apply nth_error_Some; congruence). inv Hs. pose proof Ii as (o1 & o2 & o3 & N). rewrite N in Nc. inv Nc.
        eapply act_unfailed; [exact F|apply (H2 i rq s1 Ii); eexists; exact E|apply H; eexists; exact E|exact A].
      - rewrite set_nth_other in Hs by exact Ne. apply (H s). exists t. exact Hs. }
    intros Hs. destruct r as [[]| |]; [reflexivity|exfalso..];
      (eapply (K sched _ inv2_begun); [|exact Hs|eexists; split; [reflexivity|discriminate]]);
      intros s (t & H) (r & -> & _); cbn in H; rewrite nth_error_map in H; destruct (nth_error calls i); discriminate.
  Qed.
  End Distinct.

  (** ** Loading *)
  (** What a call sees of each file was there at some time of the schedule. *)
  Definition sometime (sched : list (nat * action)) (q : list str) (n : option node) : Prop :=
    exists s1 s2, sched = s1 ++ s2 /\ n = fst (run (begun G p f0 calls) s1) q.
  Lemma sometime_more sched ia q n : sometime sched q n -> sometime (sched ++ [ia]) q n.
  Proof. intros (s1 & s2 & -> & E). exists s1, (s2 ++ [ia]). rewrite app_assoc. auto. Qed.
  Lemma run_app w s1 s2 : run w (s1 ++ s2) = run (run w s1) s2.
  Proof. apply fold_left_app. Qed.

  Lemma seen_sometime sched i : nth_error calls i = Some Loads ->
    (forall v, stage_at G (run (begun G p f0 calls) sched) i (Reading G v) -> forall q, sometime sched q (v q)) /\
    (forall r, stage_at G (run (begun G p f0 calls) sched) i (Loaded G r) ->
       exists v, (forall q, sometime sched q (v q)) /\ calm v /\ r = from_path x shape ngrams mx L fo uo v p).
  Proof.
    intros N. induction sched as [|[j a] sched [IH1 IH2]] using rev_ind.
    - split; intros ? (t & H); cbn in H; rewrite nth_error_map, N in H; discriminate.
    - rewrite run_app. pose proof (inv1_run sched _ inv1_begun) as (C & _ & H1).
      assert (Now : forall q, sometime (sched ++ [(j, a)]) q (fst (run (begun G p f0 calls) sched) q)) by (intros q; exists sched, [(j, a)]; auto).
      set (w := run (begun G p f0 calls) sched) in *. cbn [M_Overlap.run fold_left].
      assert (Keep : forall s, stage_at G (turn w (j, a)) i s -> j <> i -> stage_at G w i s).
      { intros s (t & H) Ne. unfold M_Overlap.turn in H. cbn [fst snd] in H. destruct (nth_error (snd w) j) as [[t1 s1]|]; [|exists t; exact H].
        destruct (act t1 a (fst w) s1) as [f' s']. cbn [snd] in H. rewrite set_nth_other in H by exact Ne. exists t. exact H. }
      assert (Self : forall s, stage_at G (turn w (i, a)) i s ->
        exists s1, stage_at G w i s1 /\ s = snd (act (TLoad p) a (fst w) s1) /\ fine Loads s1).
      { intros s (t & H). unfold M_Overlap.turn in H. cbn [fst snd] in H. destruct (nth_error (snd w) i) as [[t1 s1]|] eqn:E; [|congruence].
        destruct (H1 i t1 s1 E) as (c & Nc & -> & F). rewrite N in Nc. inv Nc. cbn [task_of] in H.
        destruct (act (TLoad p) a (fst w) s1) as [f' s'] eqn:A. cbn [snd] in H. rewrite set_nth_same in H by (apply nth_error_Some; congruence).
        inv H. exists s1. split; [exists (task_of p Loads); exact E|]. rewrite A. auto. }
      split.
      + intros v S q. destruct (Nat.eq_dec j i) as [->|Ne]; [|apply sometime_more; apply IH1; apply Keep; assumption].
        destruct (Self _ S) as (s1 & S1 & E & F). destruct a as [|names]; destruct s1; cbn in E, F; try discriminate; try contradiction; inv E.
        * apply Now.
        * destruct (look_cases names (fst w) seen q) as [->| ->]; [apply Now|]. apply sometime_more. apply IH1. exact S1.
      + intros r S. destruct (Nat.eq_dec j i) as [->|Ne].
        2:{ destruct (IH2 r (Keep _ S Ne)) as (v & A & B & D). exists v. split; [intros q; apply sometime_more; apply A|]. auto. }
        destruct (Self _ S) as (s1 & S1 & E & F).
        destruct a as [|names]; destruct s1; cbn in E, F; try discriminate; try contradiction; inv E.
        * exists seen. split; [|auto]. intros q. apply sometime_more. apply IH1. exact S1.
        * destruct (IH2 _ S1) as (v & A & B & D). exists v. split; [intros q; apply sometime_more; apply A|]. auto.
        * destruct (IH2 _ S1) as (v & A & B & D). exists v. split; [intros q; apply sometime_more; apply A|]. auto.
  Qed.
  Lemma overlap_loaded sched i r : taggers_local L -> names_stay L f0 p m -> nth_error calls i = Some Loads ->
    stage_at G (run (begun G p f0 calls) sched) i (Loaded G r) ->
    exists v, (forall q, sometime sched q (v q)) /\
      (forall d, (forall i rq e d', injects calls i rq -> requested (rq_adds rq) e -> stored G p m e d' -> apart (resolve d') (resolve d)) ->
         gz_load G v d = gz_load G f0 d) /\
      r = from_path x shape ngrams mx (entities_from L v) fo uo f0 p.
  Proof.
    intros TL [PL SN] N S. destruct (seen_sometime sched i N) as [_ H]. destruct (H r S) as (v & A & B & ->). exists v.
    split; [exact A|]. split.
    { intros d Ap. apply (load_local G GO). intros q. apply B. intros i0 rq e d' I R Sd. apply not_below_apart. eapply Ap; eauto. }
    destruct (calm_kept v B) as [K1 K2]. pose proof HM as (D1 & _). apply read_json_ok in D1.
    apply (reload_frame x shape ngrams mx L fo uo f0 v p (me_model m)); auto.
    - apply K1. left. reflexivity.
    - apply (K1 (pjoin (custom_dir p m) $"metadata.json")). right. right. left. reflexivity.
    - intros q I. split; [apply K2; exact I|]. intros names j s. apply (PL q). exact I.
  Qed.
End Overlap.

(** ** One call on its own *)
Section Alone.
  Context (x : Ext) (shape : str -> str) (ngrams : list str -> nat -> list str) (mx : Math) (L : Loader)
          (fo : path -> orders) (uo : path -> nat -> HashOrder) (G : Gaz).
  Notation metadata := (metadata L fo).
  Notation inject := (inject x L fo uo G).
  Notation prepare := (prepare x L fo uo G).
  Notation go := (go x shape ngrams mx L fo uo G).
  Notation act := (act x shape ngrams mx L fo uo G).
  Notation turn := (turn x shape ngrams mx L fo uo G).
  Notation run := (run x shape ngrams mx L fo uo G).

  Fixpoint steps (n : nat) (t : task) (fs : fs * stage G) : M_Fs.fs * stage G :=
    match n with 0 => fs | Datatypes.S n' => steps n' t (go t (fst fs) (snd fs)) end.
  (** The changes of the next step. *)
  Definition ops_of (s : stage G) : list op :=
    match s with Removing _ (o :: _) _ _ _ _ _ => [o] | Writing _ (o :: _) _ _ _ => [o] | _ => [] end.
  Inductive emits (t : task) : fs * stage G -> list op -> fs * stage G -> Prop :=
  | emits_refl a : emits t a [] a
  | emits_next f s tr b : emits t (go t f s) tr b -> emits t (f, s) (ops_of s ++ tr) b.
  Definition reaches (t : task) (a b : fs * stage G) : Prop := exists n, steps n t a = b.
  Lemma emits_trans t a tr b tr' c : emits t a tr b -> emits t b tr' c -> emits t a (tr ++ tr') c.
  Proof. induction 1 as [a|f s tr b H IH]; intros K; [exact K|]. rewrite <- app_assoc. constructor. auto. Qed.
  Lemma emits_end t a tr b c : emits t a tr b -> emits t b [] c -> emits t a tr c.
  Proof. intros A B. rewrite <- (app_nil_r tr). exact (emits_trans t a tr b [] c A B). Qed.
  Lemma emits_step t f s tr b : ops_of s = [] -> emits t (go t f s) tr b -> emits t (f, s) tr b.
  Proof. intros E H. change tr with ([] ++ tr). rewrite <- E. constructor. exact H. Qed.
  Lemma emits_reaches t a tr b : emits t a tr b -> reaches t a b.
  Proof. induction 1 as [a|f s tr b H [n IH]]; [exists 0; reflexivity|]. exists (Datatypes.S n). exact IH. Qed.
  Lemma go_ops t f s : fst (go t f s) = apply_ops f (ops_of s).
  Proof.
    destruct s as [|v|dirs todo|d vs dirs todo v|rest r d g' dirs todo|rest r dirs todo|r|r]; try reflexivity.
    - destruct todo as [|[e vs] todo]; reflexivity.
    - destruct rest; reflexivity.
    - destruct rest; reflexivity.
  Qed.
  (** Every tree on the way is reached. *)
  Lemma emits_prefix t a tr b : emits t a tr b -> forall t1 t2, tr = t1 ++ t2 -> exists n, fst (steps n t a) = apply_ops (fst a) t1.
  Proof.
    induction 1 as [a|f s tr b H IH]; intros t1 t2 E.
    - destruct t1; [|discriminate]. exists 0. reflexivity.
    - pose proof (go_ops t f s) as Go1. destruct t1 as [|o t1]; [exists 0; reflexivity|].
      destruct (ops_of s) as [|o' l] eqn:O.
      + destruct (IH (o :: t1) t2 E) as (n & En). exists (Datatypes.S n). cbn [steps fst snd] in *. rewrite En, Go1. reflexivity.
      + assert (l = []) as -> by (destruct s as [| | | |[|? ?]|[|? ?]| |]; cbn in O; congruence).
        cbn [app] in E. inv E. destruct (IH t1 t2 eq_refl) as (n & En). exists (Datatypes.S n). cbn [steps fst snd] in *. rewrite En, Go1. reflexivity.
  Qed.

  Lemma removes t rest r d g dirs todo : forall f, emits t (f, Removing G rest r d g dirs todo) rest (apply_ops f rest, Removing G [] r d g dirs todo).
  Proof. induction rest as [|o rest IH]; intros f; [apply emits_refl|]. apply (emits_next t f (Removing G (o :: rest) r d g dirs todo)). cbn [M_Overlap.go]. apply IH. Qed.
  Lemma writes t rest r dirs todo : forall f, emits t (f, Writing G rest r dirs todo) rest (apply_ops f rest, Writing G [] r dirs todo).
  Proof. induction rest as [|o rest IH]; intros f; [apply emits_refl|]. apply (emits_next t f (Writing G (o :: rest) r dirs todo)). cbn [M_Overlap.go]. apply IH. Qed.
  Ltac next := apply emits_step; [reflexivity|].

  Lemma one_entity t f d vs dirs todo :
    let (tr, r) := inject_entity G (task_vanilla t) f d vs in
    emits t (f, Opening G d vs dirs todo f) tr
      (apply_ops f tr, match r with Ok _ => Working G dirs todo | _ => Injected G r end).
  Proof.
    unfold inject_entity.
    destruct (gz_load G f d) as [g| |] eqn:E1; [|next; cbn; rewrite E1; apply emits_refl..].
    destruct (gz_inject G g vs true (task_vanilla t)) as [g'| |] eqn:E2; [|next; cbn; rewrite E1, E2; apply emits_refl..].
    destruct (gz_remove G f d) as [t1 r1] eqn:E3.
    assert (R1 : emits t (f, Opening G d vs dirs todo f) t1 (apply_ops f t1, Removing G [] r1 d g' dirs todo)).
    { next. cbn. rewrite E1, E2, E3. apply removes. }
    destruct r1 as [u| |]; [|eapply emits_end; [exact R1|]; next; apply emits_refl..].
    destruct (gz_dump G (apply_ops f t1) d g') as [t2 r2] eqn:E4.
    eapply emits_trans; [exact R1|]. rewrite apply_ops_app. next. cbn. rewrite E4.
    eapply emits_end; [apply writes|]. next. destruct r2; apply emits_refl.
  Qed.
  Lemma all_entities t dirs todo : forall f,
    let (tr, r) := inject_all G (task_vanilla t) f dirs todo in
    emits t (f, Working G dirs todo) tr (apply_ops f tr, Injected G r).
  Proof.
    induction todo as [|[e vs] todo IH]; intros f; cbn [inject_all].
    - next. apply emits_refl.
    - destruct (hget str_eqb e dirs) as [d|] eqn:E; [|next; cbn; rewrite E; apply emits_refl].
      pose proof (one_entity t f d vs dirs todo) as O. destruct (inject_entity G (task_vanilla t) f d vs) as [t1 r1].
      assert (R : emits t (f, Working G dirs ((e, vs) :: todo)) t1 (apply_ops f t1, match r1 with Ok _ => Working G dirs todo | _ => Injected G r1 end)).
      { next. cbn. rewrite E. exact O. }
      destruct r1 as [u| |]; [|exact R..]. specialize (IH (apply_ops f t1)).
      destruct (inject_all G (task_vanilla t) (apply_ops f t1) dirs todo) as [t2 r2]. rewrite apply_ops_app.
      eapply emits_trans; [exact R|exact IH].
  Qed.
  Lemma whole_injection o1 o2 o3 ij f :
    let (tr, r) := inject o1 o2 o3 ij f in
    emits (TInject o1 o2 o3 ij) (f, Waiting G) tr (apply_ops f tr, Injected G r).
  Proof.
    unfold M_Inject.inject. pose proof (all_entities (TInject o1 o2 o3 ij)) as A. cbn [task_vanilla] in A.
    destruct (prepare o1 o2 ij f) as [[dirs values]|er|] eqn:E.
    - specialize (A dirs (reorder o3 values) f). destruct (inject_all G (ij_vanilla ij) f dirs (reorder o3 values)) as [tr r].
      next. next. cbn. rewrite E. exact A.
    - next. next. cbn. rewrite E. apply emits_refl.
    - next. next. cbn. rewrite E. apply emits_refl.
  Qed.
  Lemma steps_add t n n' a : steps (n + n') t a = steps n' t (steps n t a).
  Proof. revert a. induction n as [|n IH]; intros a; cbn; auto. Qed.
  Lemma reaches_refl t a : reaches t a a.
  Proof. exists 0. reflexivity. Qed.
  Lemma reaches_trans t a b c : reaches t a b -> reaches t b c -> reaches t a c.
  Proof. intros (n & <-) (n' & <-). exists (n + n'). apply steps_add. Qed.
  Lemma reaches_step t f s b : reaches t (go t f s) b -> reaches t (f, s) b.
  Proof. intros (n & <-). exists (Datatypes.S n). reflexivity. Qed.

  (** ** In a world *)
  Lemma run_steps i n : forall w t s, nth_error (snd w) i = Some (t, s) ->
    run w (repeat (i, Go) n) = (fst (steps n t (fst w, s)), set_nth i (t, snd (steps n t (fst w, s))) (snd w)).
  Proof.
    induction n as [|n IH]; intros [f l] t s H; cbn [snd fst] in *.
    - cbn. rewrite set_nth_id; auto.
    - cbn [repeat M_Overlap.run fold_left]. unfold M_Overlap.turn at 2. cbn [fst snd]. rewrite H. cbn [M_Overlap.act].
      destruct (go t f s) as [f' s'] eqn:E. change (fold_left turn (repeat (i, Go) n)) with (fun w => run w (repeat (i, Go) n)). cbv beta.
      rewrite (IH (f', set_nth i (t, s') l) t s').
      + cbn [steps fst snd]. rewrite E. rewrite set_nth_twice. reflexivity.
      + cbn [snd]. apply set_nth_same. apply nth_error_Some. congruence.
  Qed.
  Lemma run_reaches i w t s f' s' : nth_error (snd w) i = Some (t, s) -> reaches t (fst w, s) (f', s') ->
    exists n, run w (repeat (i, Go) n) = (f', set_nth i (t, s') (snd w)).
  Proof. intros H (n & E). exists n. rewrite (run_steps i n w t s H), E. reflexivity. Qed.

  Notation ended := (S_Overlap.ended G).
  Ltac fin := (left; eexists; reflexivity) || (right; eexists; reflexivity).
  Lemma always_ends t f s : exists f' s', reaches t (f, s) (f', s') /\ ended s'.
  Proof.
    assert (Wk : forall f dirs todo, exists f' s', reaches t (f, Working G dirs todo) (f', s') /\ ended s').
    { intros f1 dirs todo. pose proof (all_entities t dirs todo f1) as A. destruct (inject_all G (task_vanilla t) f1 dirs todo) as [tr r].
      eexists _, _. split; [eapply emits_reaches; exact A|fin]. }
    assert (Wr : forall f rest r dirs todo, exists f' s', reaches t (f, Writing G rest r dirs todo) (f', s') /\ ended s').
    { intros f1 rest r dirs todo. destruct r as [u| |].
      - destruct (Wk (apply_ops f1 rest) dirs todo) as (f' & s' & R & E). exists f', s'. split; [|exact E].
        eapply reaches_trans; [eapply emits_reaches; apply writes|]. apply reaches_step. exact R.
      - eexists _, _. split; [eapply reaches_trans; [eapply emits_reaches; apply writes|]; apply reaches_step; apply reaches_refl|fin].
      - eexists _, _. split; [eapply reaches_trans; [eapply emits_reaches; apply writes|]; apply reaches_step; apply reaches_refl|fin]. }
    assert (Rm : forall f rest r d g dirs todo, exists f' s', reaches t (f, Removing G rest r d g dirs todo) (f', s') /\ ended s').
    { intros f1 rest r d g dirs todo. destruct r as [u| |].
      - destruct (Wr (apply_ops f1 rest) (fst (gz_dump G (apply_ops f1 rest) d g)) (snd (gz_dump G (apply_ops f1 rest) d g)) dirs todo) as (f' & s' & R & E).
        exists f', s'. split; [|exact E]. eapply reaches_trans; [eapply emits_reaches; apply removes|]. apply reaches_step. exact R.
      - eexists _, _. split; [eapply reaches_trans; [eapply emits_reaches; apply removes|]; apply reaches_step; apply reaches_refl|fin].
      - eexists _, _. split; [eapply reaches_trans; [eapply emits_reaches; apply removes|]; apply reaches_step; apply reaches_refl|fin]. }
    assert (Rd : forall f v, exists f' s', reaches t (f, Reading G v) (f', s') /\ ended s').
    { intros f1 v. destruct t as [o1 o2 o3 ij|q] eqn:Et.
      - destruct (prepare o1 o2 ij v) as [[dirs values]|er|] eqn:E.
        + destruct (Wk f1 dirs (reorder o3 values)) as (f' & s' & R & En). exists f', s'. split; [|exact En].
          apply reaches_step. cbn. rewrite E. exact R.
        + eexists _, _. split; [apply reaches_step; cbn; rewrite E; apply reaches_refl|fin].
        + eexists _, _. split; [apply reaches_step; cbn; rewrite E; apply reaches_refl|fin].
      - eexists _, _. split; [apply reaches_step; apply reaches_refl|fin]. }
    destruct s as [|v|dirs todo|d vs dirs todo v|rest r d g' dirs todo|rest r dirs todo|r|r]; auto.
    - destruct (Rd f f) as (f' & s' & R & E). exists f', s'. split; [apply reaches_step; exact R|exact E].
    - destruct (gz_load G v d) as [g| |] eqn:E1; [|eexists _, _; split; [apply reaches_step; cbn; rewrite E1; apply reaches_refl|fin]..].
      destruct (gz_inject G g vs true (task_vanilla t)) as [g'| |] eqn:E2;
        [|eexists _, _; split; [apply reaches_step; cbn; rewrite E1, E2; apply reaches_refl|fin]..].
      destruct (Rm f (fst (gz_remove G f d)) (snd (gz_remove G f d)) d g' dirs todo) as (f' & s' & R & E). exists f', s'. split; [|exact E].
      apply reaches_step. cbn. rewrite E1, E2. exact R.
    - eexists _, _. split; [apply reaches_refl|fin].
    - eexists _, _. split; [apply reaches_refl|fin].
  Qed.
  Lemma never_blocks w i t s : nth_error (snd w) i = Some (t, s) ->
    exists n s', stage_at G (run w (repeat (i, Go) n)) i s' /\ ended s'.
  Proof.
    intros H. destruct (always_ends t (fst w) s) as (f' & s' & R & E). destruct (run_reaches i w t s f' s' H R) as (n & En).
    exists n, s'. split; [|exact E]. rewrite En. exists t. cbn [snd]. apply set_nth_same. apply nth_error_Some. congruence.
  Qed.
  Lemma alone p f o1 o2 o3 rq tr r :
    inject o1 o2 o3 (request p (rq_adds rq) (rq_vanilla rq) (rq_resources rq)) f = (tr, r) ->
    exists n, run (begun G p f [Injects o1 o2 o3 rq]) (repeat (0, Go) n) =
      (apply_ops f tr, [(task_of p (Injects o1 o2 o3 rq), Injected G r)]).
  Proof.
    intros H. pose proof (whole_injection o1 o2 o3 (request p (rq_adds rq) (rq_vanilla rq) (rq_resources rq)) f) as W. rewrite H in W.
    exact (run_reaches 0 (begun G p f [Injects o1 o2 o3 rq]) (task_of p (Injects o1 o2 o3 rq)) (Waiting G) _ _ eq_refl (emits_reaches _ _ _ _ W)).
  Qed.

  (** ** The same entity twice *)
  Lemma lost p m f a1 a2 a3 ra ta b1 b2 b3 rb tb e d :
    gaz_ok G -> metadata f p m -> tidy p m ->
    (forall f d, snd (gz_remove G f d) = Ok tt) -> (forall f d g, snd (gz_dump G f d g) = Ok tt) ->
    inject a1 a2 a3 (request p (rq_adds ra) (rq_vanilla ra) (rq_resources ra)) f = (ta, Ok tt) ->
    inject b1 b2 b3 (request p (rq_adds rb) (rq_vanilla rb) (rq_resources rb)) f = (tb, Ok tt) ->
    (forall e', requested (rq_adds rb) e' <-> e' = e) -> stored G p m e d ->
    exists sched f', run (begun G p f [Injects a1 a2 a3 ra; Injects b1 b2 b3 rb]) sched =
        (f', [(task_of p (Injects a1 a2 a3 ra), Injected G (Ok tt)); (task_of p (Injects b1 b2 b3 rb), Injected G (Ok tt))]) /\
      gz_load G f' d = gz_load G (apply_ops f tb) d.
  Proof.
    intros GO HM T GR GD HA HB Rb Sd.
    set (tA := task_of p (Injects a1 a2 a3 ra)). set (tB := task_of p (Injects b1 b2 b3 rb)).
    pose proof HB as HB'. unfold M_Inject.inject in HB'.
    destruct (prepare b1 b2 (request p (rq_adds rb) (rq_vanilla rb) (rq_resources rb)) f) as [[dirs values]|er|] eqn:E; [|discriminate..].
    destruct (prepare_ok _ _ _ _ _ _ _ _ _ _ _ _ _ _ E) as (M' & res & HM' & U & D & St & ND & V & X).
    rewrite (metadata_unique _ _ _ _ _ _ HM' HM) in *. clear M' HM'.
    assert (Vs : exists vs, reorder b3 values = [(e, vs)]).
    { destruct (X e) as (vs & Iv); [apply Rb; reflexivity|].
      assert (Al : forall e' vs', In (e', vs') values -> e' = e) by (intros e' vs' J; apply V in J as [J _]; apply Rb; exact J).
      exists vs. apply (reorder_In b3) in Iv.
      assert (Al' : forall e' vs', In (e', vs') (reorder b3 values) -> e' = e) by (intros e' vs' J; apply (proj1 (reorder_In _ _ _)) in J; eauto).
      assert (ND' : NoDup (hkeys (reorder b3 values))).
      { unfold hkeys. eapply Permutation_NoDup; [apply Permutation_map; apply reorder_perm|]. exact ND. }
      destruct (reorder b3 values) as [|[e1 v1] [|[e2 v2] l]]; [destruct Iv|destruct Iv as [Iv|[]]; congruence|].
      exfalso. rewrite (Al' e1 v1), (Al' e2 v2) in ND'; [|right; left; reflexivity|left; reflexivity]. inv ND'. apply H1. left. reflexivity. }
    destruct Vs as (vs & Ev). rewrite Ev in HB'. cbn [inject_all] in HB'.
    assert (Hd : hget str_eqb e dirs = Some d) by (apply D; split; [apply Rb; reflexivity|exact Sd]). rewrite Hd in HB'.
    rewrite request_vanilla in HB'. destruct (inject_entity G (rq_vanilla rb) f d vs) as [t1 r1] eqn:Ei.
    destruct r1 as [[]| |]; [|discriminate..]. injection HB' as <-. rewrite app_nil_r in *.
    destruct (entity_ok G GO _ _ _ _ _ Ei) as (g & g' & Lg & Ig & Lg').
    (* B reads, A runs, B goes on *)
    set (w1 := (f, [(tA, Waiting G); (tB, Opening G d vs dirs [] f)]) : world G).
    assert (W1 : run (begun G p f [Injects a1 a2 a3 ra; Injects b1 b2 b3 rb]) [(1, Go); (1, Go); (1, Go)] = w1).
    { unfold M_Overlap.run, begun. cbn [map fold_left]. unfold M_Overlap.turn. cbn [fst snd nth_error M_Overlap.act M_Overlap.go set_nth task_of].
      rewrite E, Ev. cbn [M_Overlap.go]. rewrite Hd. reflexivity. }
    pose proof (whole_injection a1 a2 a3 (request p (rq_adds ra) (rq_vanilla ra) (rq_resources ra)) f) as WA. rewrite HA in WA.
    destruct (run_reaches 0 w1 tA (Waiting G) _ _ eq_refl (emits_reaches _ _ _ _ WA)) as (n & W2). cbn [snd w1 set_nth] in W2.
    set (fA := apply_ops f ta) in *.
    set (f2 := apply_ops fA (fst (gz_remove G fA d))).
    assert (RB : reaches tB (fA, Opening G d vs dirs [] f) (apply_ops f2 (fst (gz_dump G f2 d g')), Injected G (Ok tt))).
    { apply reaches_step. cbn [M_Overlap.go]. rewrite Lg. unfold tB at 2. cbn [task_of task_vanilla]. rewrite request_vanilla, Ig, GR.
      eapply reaches_trans; [eapply emits_reaches; apply removes|]. apply reaches_step. cbn [M_Overlap.go]. fold f2. rewrite GD.
      eapply reaches_trans; [eapply emits_reaches; apply writes|]. apply reaches_step. cbn. apply reaches_step. apply reaches_refl. }
    destruct (run_reaches 1 (fA, [(tA, Injected G (Ok tt)); (tB, Opening G d vs dirs [] f)]) tB _ _ _ eq_refl RB) as (n' & W3). cbn [snd set_nth] in W3.
    exists ([(1, Go); (1, Go); (1, Go)] ++ repeat (0, Go) n ++ repeat (1, Go) n'). eexists. split.
    - rewrite !run_app, W1, W2. exact W3.
    - rewrite Lg'. apply (dump_done G GO); [|apply GD]. apply (remove_done G GO). apply GR.
  Qed.

  (** ** Loading while the parser is missing *)
  Lemma run_prefix w i o1 o2 o3 ij tr r t1 t2 : nth_error (snd w) i = Some (TInject o1 o2 o3 ij, Waiting G) ->
    inject o1 o2 o3 ij (fst w) = (tr, r) -> tr = t1 ++ t2 ->
    exists n s, run w (repeat (i, Go) n) = (apply_ops (fst w) t1, set_nth i (TInject o1 o2 o3 ij, s) (snd w)).
  Proof.
    intros H I E. pose proof (whole_injection o1 o2 o3 ij (fst w)) as W. rewrite I in W.
    destruct (emits_prefix _ _ _ _ W t1 t2 E) as (n & En). exists n, (snd (steps n (TInject o1 o2 o3 ij) (fst w, Waiting G))).
    rewrite (run_steps i n w _ _ H), En. reflexivity.
  Qed.
  Lemma load_hindered p m f o1 o2 o3 rq tr e d :
    gaz_ok G -> gazetteer_needed L -> metadata f p m -> tidy p m ->
    inject o1 o2 o3 (request p (rq_adds rq) (rq_vanilla rq) (rq_resources rq)) f = (tr, Ok tt) ->
    requested (rq_adds rq) e -> is_custom m e -> stored G p m e d ->
    exists sched r, stage_at G (run (begun G p f [Injects o1 o2 o3 rq; Loads]) sched) 1 (Loaded G r) /\ forall en, r <> Ok en.
  Proof.
    intros GO GN HM T H R C Sd.
    destruct (crash_lost_engine x L fo uo G shape ngrams mx o1 o2 o3 p (rq_adds rq) (rq_vanilla rq) (rq_resources rq) f m tr e d GO GN HM
      (tidy_separate G p m (rq_adds rq) T) (tidy_outside G p m (rq_adds rq) T) H R C Sd) as (t1 & t2 & E & B).
    destruct (run_prefix (begun G p f [Injects o1 o2 o3 rq; Loads]) 0 o1 o2 o3 _ tr (Ok tt) t1 t2 eq_refl H E) as (n & s & W).
    exists (repeat (0, Go) n ++ [(1, Go); (1, Go)]), (from_path x shape ngrams mx L fo uo (apply_ops f t1) p).
    split; [|exact B]. rewrite run_app, W. exists (TLoad p). reflexivity.
  Qed.
  Lemma injection_hindered p m f o1 o2 o3 rq tr e d q1 q2 q3 rq' :
    gaz_ok G -> gazetteer_needed L -> metadata f p m -> tidy p m ->
    inject o1 o2 o3 (request p (rq_adds rq) (rq_vanilla rq) (rq_resources rq)) f = (tr, Ok tt) ->
    requested (rq_adds rq) e -> is_custom m e -> stored G p m e d -> rq_resources rq' = None ->
    exists sched r, stage_at G (run (begun G p f [Injects o1 o2 o3 rq; Injects q1 q2 q3 rq']) sched) 1 (Injected G r) /\ r <> Ok tt.
  Proof.
    intros GO GN HM T H R C Sd Nr.
    destruct (missing_reachable x L fo uo G o1 o2 o3 p (rq_adds rq) (rq_vanilla rq) (rq_resources rq) f m tr e d GO HM
      (tidy_separate G p m (rq_adds rq) T) H R Sd) as (t1 & t2 & E & Hg).
    destruct (run_prefix (begun G p f [Injects o1 o2 o3 rq; Injects q1 q2 q3 rq']) 0 o1 o2 o3 _ tr (Ok tt) t1 t2 eq_refl H E) as (n & s & W).
    assert (HM1 : metadata (apply_ops f t1) p m).
    { eapply (kept_metadata x L fo uo G o1 o2 o3 p (rq_adds rq) (rq_vanilla rq) (rq_resources rq) f m t1 t2); eauto; [apply tidy_outside; auto|].
      rewrite H. exact E. }
    assert (Pb : forall dv, prepare q1 q2 (request p (rq_adds rq') (rq_vanilla rq') (rq_resources rq')) (apply_ops f t1) <> Ok dv).
    { intros [dirs values] Ep. destruct (prepare_ok _ _ _ _ _ _ _ _ _ _ _ _ _ _ Ep) as (M' & res & HM' & U & _).
      rewrite Nr in U. cbn in U.
      destruct (resources_parts x L fo uo (apply_ops f t1) p m res HM1 U) as [_ (gaz & Eg)].
      destruct HM1 as (_ & _ & _ & _ & _ & D5).
      destruct Sd as [(_ & name & (pre & post & Ep' & _) & ->)|(N & _)]; [|contradiction].
      destruct (GN (apply_ops f t1) (custom_gazetteers p m) (me_custom_parsers m) e name) as (er & Ge); auto; [|congruence].
      rewrite Ep'. apply in_or_app. right. left. reflexivity. }
    exists (repeat (0, Go) n ++ [(1, Go); (1, Go)]),
      (match prepare q1 q2 (request p (rq_adds rq') (rq_vanilla rq') (rq_resources rq')) (apply_ops f t1) with Ok _ => Panic | Err e => Err e | Panic => Panic end).
    split.
    - rewrite run_app, W. unfold M_Overlap.run. cbn [fold_left]. unfold M_Overlap.turn.
      cbn [fst snd nth_error set_nth begun map M_Overlap.act M_Overlap.go task_of].
      destruct (prepare q1 q2 _ (apply_ops f t1)) as [dv|er|] eqn:Ep; [exfalso; exact (Pb dv eq_refl)|..];
        (exists (task_of p (Injects q1 q2 q3 rq')); reflexivity).
    - destruct (prepare q1 q2 _ (apply_ops f t1)) as [dv|er|]; discriminate.
  Qed.
End Alone.
