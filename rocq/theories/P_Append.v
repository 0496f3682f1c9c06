(** Proofs for C97: parsers appended to an engine. *)
From Coq Require Import List Bool Arith Lia Permutation.
From Verif Require Import Base F32 M_Types M_Engine S_Base S_Engine S_Append P_Base P_F32 P_Engine P_Intents.
Import ListNotations.
Local Open Scope nat_scope.

Section Append.
  Context (x : Ext) (en : Engine).

  Lemma loop_engine ps' input wl salts ps : forall sc,
    parse_loop x (with_parsers en ps') input wl salts sc ps = parse_loop x en input wl salts sc ps.
  Proof.
    induction ps as [|p ps IH]; intros sc; cbn [parse_loop]; [reflexivity|]. destruct (ip_parse p input wl) as [r| |]; cbn [bind]; try reflexivity.
    destruct (ir_name (pr_intent r)); [reflexivity|apply IH].
  Qed.
  Lemma loop_app input wl salts more ps : forall sc,
    (forall res, parse_loop x en input wl salts sc ps = Ok res -> ir_name (ps_intent res) <> None) ->
    parse_loop x en input wl salts sc (ps ++ more) = parse_loop x en input wl salts sc ps.
  Proof.
    induction ps as [|p ps IH]; intros sc H; cbn [app parse_loop] in *; [exfalso; exact (H _ eq_refl eq_refl)|].
    destruct (ip_parse p input wl) as [r| |]; cbn [bind] in *; try reflexivity.
    destruct (ir_name (pr_intent r)); [reflexivity|apply IH, H].
  Qed.
  Lemma loop_none input wl salts q more ps : forall sc res,
    parse_loop x en input wl salts sc ps = Ok res -> ir_name (ps_intent res) = None ->
    parse_loop x en input wl salts sc (ps ++ q :: more) = parse_loop x en input wl salts f0 (q :: more).
  Proof.
    induction ps as [|p ps IH]; intros sc res H N; cbn [app parse_loop] in *.
    - destruct (ip_parse q input wl) as [r| |]; cbn [bind]; try reflexivity.
    - destruct (ip_parse p input wl) as [r| |]; cbn [bind] in *; try discriminate.
      destruct (ir_name (pr_intent r)) as [i|] eqn:E; [|exact (IH _ _ H N)].
      exfalso. bind_inv H. injection H as <-. cbn [ps_intent] in N. congruence.
  Qed.

  Lemma pwa0 o1 o2 ps input w b salts :
    parse_with_alternatives x o1 o2 (with_parsers en ps) input w b 0 salts =
    (let* wl := get_intents_whitelist o1 en w b in parse_loop x en input wl salts f0 ps).
  Proof.
    unfold parse_with_alternatives. change (get_intents_whitelist o1 (with_parsers en ps) w b) with (get_intents_whitelist o1 en w b).
    destruct (get_intents_whitelist o1 en w b) as [wl| |]; cbn [bind]; try reflexivity.
    cbn [Nat.eqb en_parsers with_parsers]. rewrite loop_engine. destruct (parse_loop _ _ _ _ _ _ _); reflexivity.
  Qed.
  Lemma pwa0' o1 o2 input w b salts :
    parse_with_alternatives x o1 o2 en input w b 0 salts =
    (let* wl := get_intents_whitelist o1 en w b in parse_loop x en input wl salts f0 (en_parsers en)).
  Proof.
    unfold parse_with_alternatives. destruct (get_intents_whitelist o1 en w b) as [wl| |]; cbn [bind]; try reflexivity.
    destruct (parse_loop _ _ _ _ _ _ _); reflexivity.
  Qed.

  Lemma parse_appended o1 o2 o2' input w b salts more :
    (forall res, parse_with_alternatives x o1 o2 en input w b 0 salts = Ok res -> ir_name (ps_intent res) <> None) ->
    parse_with_alternatives x o1 o2' (followed_by en more) input w b 0 salts =
    parse_with_alternatives x o1 o2 en input w b 0 salts.
  Proof.
    unfold followed_by. rewrite pwa0, pwa0'. destruct (get_intents_whitelist o1 en w b) as [wl| |]; cbn [bind]; try reflexivity.
    apply loop_app.
  Qed.
  Lemma parse_appended_none o1 o2 o2' o2'' input w b salts q more res :
    parse_with_alternatives x o1 o2 en input w b 0 salts = Ok res -> ir_name (ps_intent res) = None ->
    parse_with_alternatives x o1 o2' (followed_by en (q :: more)) input w b 0 salts =
    parse_with_alternatives x o1 o2'' (with_parsers en (q :: more)) input w b 0 salts.
  Proof.
    unfold followed_by. rewrite !pwa0, pwa0'. destruct (get_intents_whitelist o1 en w b) as [wl| |]; cbn [bind]; try discriminate.
    apply loop_none.
  Qed.
  Lemma pwa_main o1 o2 e input w b n salts res :
    parse_with_alternatives x o1 o2 e input w b n salts = Ok res ->
    exists res0, parse_with_alternatives x o1 o2 e input w b 0 salts = Ok res0 /\ ps_intent res = ps_intent res0 /\ ps_slots res = ps_slots res0.
  Proof.
    unfold parse_with_alternatives. intros H. bind_inv H. rewrite E. cbn [bind]. bind_inv H. rewrite E0. cbn [bind Nat.eqb].
    exists a0. split; [reflexivity|]. destruct (n =? 0); [injection H as <-; auto|]. bind_inv H. bind_inv H. injection H as <-. auto.
  Qed.
  Lemma parse_appended_main o1 o2 o2' input w b n n' salts more res res' :
    parse_with_alternatives x o1 o2 en input w b n salts = Ok res -> ir_name (ps_intent res) <> None ->
    parse_with_alternatives x o1 o2' (followed_by en more) input w b n' salts = Ok res' ->
    ps_intent res' = ps_intent res /\ ps_slots res' = ps_slots res.
  Proof.
    intros H N H'. apply pwa_main in H as (r0 & H & Ei & Es). apply pwa_main in H' as (r1 & H' & -> & ->). rewrite Ei in *. rewrite Es.
    rewrite (parse_appended o1 o2) in H'; [rewrite H in H'; injection H' as <-; auto|].
    intros r E. rewrite H in E. injection E as <-. exact N.
  Qed.

  (** ** get_slots *)
  Lemma slots_engine ps' input intent salts ps :
    get_slots_loop x (with_parsers en ps') input intent salts ps = get_slots_loop x en input intent salts ps.
  Proof.
    induction ps as [|p ps IH]; cbn [get_slots_loop]; [reflexivity|]. destruct (ip_get_slots p input intent) as [[|s l]| |]; cbn [bind]; auto.
  Qed.
  Lemma slots_appended input intent salts more :
    get_slots_with_alternatives x en input intent salts <> Ok [] ->
    get_slots_with_alternatives x (followed_by en more) input intent salts = get_slots_with_alternatives x en input intent salts.
  Proof.
    unfold get_slots_with_alternatives, followed_by. rewrite slots_engine. cbn [en_parsers with_parsers].
    induction (en_parsers en) as [|p ps IH]; cbn [app get_slots_loop]; [congruence|].
    destruct (ip_get_slots p input intent) as [[|s l]| |]; cbn [bind]; auto.
  Qed.
  Lemma slots_appended_none input intent salts more :
    (forall p, In p (en_parsers en) -> ip_get_slots p input intent = Ok []) ->
    get_slots_with_alternatives x (followed_by en more) input intent salts =
    get_slots_with_alternatives x (with_parsers en more) input intent salts.
  Proof.
    unfold get_slots_with_alternatives, followed_by. rewrite !slots_engine. cbn [en_parsers with_parsers].
    induction (en_parsers en) as [|p ps IH]; intros H; cbn [app get_slots_loop]; [reflexivity|].
    rewrite (H p (or_introl eq_refl)). cbn [bind]. apply IH. intros q Hq. apply H. right. exact Hq.
  Qed.

  (** ** get_intents *)
  Lemma merge_app input ps qs : forall m,
    merge_intents input (ps ++ qs) m = (let* m' := merge_intents input ps m in merge_intents input qs m').
  Proof.
    induction ps as [|p ps IH]; intros m; cbn [app merge_intents bind]; [reflexivity|].
    destruct (ip_get_intents p input) as [l| |]; cbn [bind]; auto.
  Qed.
  Lemma intents_appended ord ord' input more out out' :
    get_intents ord en input = Ok out -> get_intents ord' (followed_by en more) input = Ok out' ->
    forall r, In r out -> fis_nan (ir_score r) = false ->
    exists r', In r' out' /\ ir_name r' = ir_name r /\ fle (ir_score r) (ir_score r') = true.
  Proof.
    unfold get_intents, followed_by. cbn [en_parsers with_parsers]. intros H H' r Hr Nr. bind_inv H. rewrite merge_app, E in H'. cbn [bind] in H'. bind_inv H'.
    pose proof (merge_intents_keyed _ _ _ _ keyed_nil E) as K. pose proof (merge_intents_keyed _ _ _ _ K E0) as K'.
    apply (sort_desc_In _ _ _ _ H) in Hr. apply in_map_iff in Hr as ([k e] & <- & Hr). cbn [snd] in *. apply reorder_In in Hr.
    assert (Hs : has (ir_name e) (ir_score e) a).
    { exists e. split; [|apply fle_refl; exact Nr]. destruct K as [ND Kn]. rewrite (Kn _ _ Hr). apply hget_NoDup; auto. apply opt_str_eqb_spec. }
    pose proof (has_merge _ _ _ _ _ _ K Hs E0) as (e' & G & F). exists e'. apply hget_In in G; [|apply opt_str_eqb_spec].
    split; [|split; [exact (proj2 K' _ _ G)|exact F]].
    apply (sort_desc_In _ _ _ _ H'). apply in_map_iff. exists (ir_name e, e'). split; [reflexivity|apply reorder_In; exact G].
  Qed.
  Lemma intents_failing ord ord' input q more out :
    get_intents ord en input = Ok out ->
    (forall e, ip_get_intents q input = Err e -> get_intents ord' (followed_by en (q :: more)) input = Err e) /\
    (ip_get_intents q input = Panic -> get_intents ord' (followed_by en (q :: more)) input = Panic).
  Proof.
    unfold get_intents, followed_by. cbn [en_parsers with_parsers]. intros H. bind_inv H. rewrite merge_app, E. cbn [bind merge_intents].
    split; [intros e Q|intros Q]; rewrite Q; reflexivity.
  Qed.

  (** ** Silent parsers *)
  Lemma loop_silent input wl salts q p post pre : (exists s, finds_nothing q input wl s) -> forall sc,
    parse_loop x en input wl salts sc (pre ++ q :: p :: post) = parse_loop x en input wl salts sc (pre ++ p :: post).
  Proof.
    intros (s & sl & Q). induction pre as [|p0 pre IH]; intros sc; cbn [app].
    - cbn [parse_loop]. rewrite Q. cbn [bind pr_intent ir_name]. reflexivity.
    - cbn [parse_loop]. destruct (ip_parse p0 input wl) as [r| |]; cbn [bind]; try reflexivity. destruct (ir_name (pr_intent r)); [reflexivity|apply IH].
  Qed.
  Lemma parse_silent o1 o2 o2' input w b salts pre q p post :
    (forall wl, exists s, finds_nothing q input wl s) ->
    parse_with_alternatives x o1 o2 (with_parsers en (pre ++ q :: p :: post)) input w b 0 salts =
    parse_with_alternatives x o1 o2' (with_parsers en (pre ++ p :: post)) input w b 0 salts.
  Proof.
    intros Q. rewrite !pwa0. destruct (get_intents_whitelist o1 en w b) as [wl| |]; cbn [bind]; try reflexivity. apply loop_silent, Q.
  Qed.
End Append.
