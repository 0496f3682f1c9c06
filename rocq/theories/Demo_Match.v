(** Models for the examples about what the rule based parsers recognise. Not part of the
    model of the repository. *)
From Coq Require Import String List NArith ZArith Bool Arith Lia.
From Verif Require Import Base Sorting F32 M_Types M_Utils M_Engine M_Det M_Lookup S_Base S_Utils S_Det S_Rules
  S_Rank S_Match P_Base P_F32 P_Engine Demo P_Demo Demo_Rules P_Match P_MatchDet.
Import ListNotations.

(** ** Lookup parser *)
(** The word "the" is meaningful for "lightOn". *)
Definition match_lm : LookupModel :=
  mkLM $"en" [$"room"; $"degrees"] [$"lightOn"; $"setTemp"]
       [(demo_hash $"light on in %room%", (0%Z, [0%Z]));
        (demo_hash $"set %room% to %snips/number%", (1%Z, [0%Z; 1%Z]));
        (demo_hash $"set the %room%", (0%Z, [0%Z]))]
       [mkGS [$"lightOn"] (mkES [] [$"room"]); mkGS [$"setTemp"] (mkES [$"snips/number"] [$"room"])]
       [($"lightOn", [$"the"])] true.
Definition dummy_lp : LookupParser := mkLP EN [] [] [] [] [] [] demo_res.
Definition match_lp : LookupParser := get_ok dummy_lp (lookup_new demo_lang id_order match_lm demo_res).

Lemma match_lookup_setting : lookup_setting demo_lang id_order match_lm demo_res match_lp.
Proof.
  split; [apply get_ok_eq; vm_compute; reflexivity|]. split; [repeat constructor; simpl; auto|].
  intros h i ss H. apply (in_map (fun e => length (snd (snd e)))) in H.
  change (map (fun e : Z * (Z * list Z) => length (snd (snd e))) (lm_map match_lm)) with [1; 2; 1] in H. cbn [snd] in H.
  revert H. generalize (length ss). intros n H. destruct H as [<-|[<-|[<-|[]]]]; reflexivity.
Qed.
Lemma match_answered input f : entities_answered demo_ext match_lm demo_res input f.
Proof.
  intros g j [<-|[<-|[]]] _ _.
  - eexists. eexists. eexists. split; [constructor|]. split; [eexists; eexists; split; [|split]; reflexivity|reflexivity].
  - eexists. exists [$"snips/number"]. eexists. split; [constructor; [reflexivity|constructor]|].
    split; [eexists; eexists; split; [|split]; reflexivity|reflexivity].
Qed.
Lemma match_table_ok : table_ok match_lp.
Proof.
  intros h i ss H. assert (M : lp_map match_lp = lm_map match_lm) by (vm_compute; reflexivity). rewrite M in H.
  assert (A : length (lp_intents_names match_lp) = 2) by (vm_compute; reflexivity).
  assert (B : length (lp_slots_names match_lp) = 2) by (vm_compute; reflexivity).
  unfold valid_id. rewrite A, B. apply (in_map snd) in H.
  change (map snd (lm_map match_lm)) with [(0%Z, [0%Z]); (1%Z, [0%Z; 1%Z]); (0%Z, [0%Z])] in H. cbn [snd] in H.
  destruct H as [H|[H|[H|[]]]]; inv H; (split; [lia|split; [|cbn [length]; lia]]); intros s Hs; cbn [In] in Hs; intuition lia.
Qed.

(** The text is taken for "lightOn" because of its form for "setTemp". *)
Definition crossed_text : str := $"light the on in kitchen".
Lemma lookup_crossed : exists x lang_of o m res lp ord input i r r',
  lookup_setting lang_of o m res lp /\
  lookup_parse x ord lp input None = Ok r /\ ir_name (pr_intent r) = Some i /\ map is_value (pr_slots r) = [$"kitchen"] /\
  lookup_parse x ord lp input (Some [i]) = Ok r' /\ ir_name (pr_intent r') = None /\
  lookup_get_slots x ord lp input i = Ok [].
Proof.
  exists demo_ext, demo_lang, id_order, match_lm, demo_res, match_lp, id_order, crossed_text, $"lightOn",
    (get_ok no_ipr (lookup_parse demo_ext id_order match_lp crossed_text None)),
    (get_ok no_ipr (lookup_parse demo_ext id_order match_lp crossed_text (Some [$"lightOn"]))).
  split; [exact match_lookup_setting|].
  split; [apply get_ok_eq; vm_compute; reflexivity|]. split; [vm_compute; reflexivity|]. split; [vm_compute; reflexivity|].
  split; [apply get_ok_eq; vm_compute; reflexivity|]. split; vm_compute; reflexivity.
Qed.

(** ** Deterministic parser *)
Definition match_patterns : list (str * demo_pattern) :=
  [($"move", [(None, $"from"); (Some $"group0", $"%ROOM%"); (None, $"to"); (Some $"group0_2", $"%ROOM%")]);
   ($"unplaced", [(None, $"go"); (Some $"group1", $"home")]);
   ($"home", [(None, $"go"); (Some $"group2", $"home")])].
Definition match_compile (p : str) : outcome Regex :=
  match sget p match_patterns with Some w => Ok (demo_regex w) | None => Err EOther end.
Definition match_dm (extra : list (str * list (str * str))) (pattern : str) : DetModel :=
  mkDM $"en" [($"move", [$"move"]); ($"go", [pattern])] [($"group0", $"room"); ($"group2", $"place")]
       ([($"move", [($"room", $"room")]); ($"go", [($"place", $"place")])] ++ extra) [] true.
Definition match_dp (extra : list (str * list (str * str))) (pattern : str) : DetParser :=
  get_ok dummy_dp (det_new demo_ext demo_lang match_compile id_order id_order id_order (match_dm extra pattern) demo_res).

Lemma match_groups_fit : groups_fit match_compile.
Proof.
  intros p r s caps H E. unfold match_compile in H. destruct (sget p match_patterns) as [w|] eqn:G; [|discriminate].
  inversion H; subst r. unfold demo_regex in E. destruct (list_eqb _ _ _); [|discriminate]. inversion E; subst caps.
  cbn [length]. rewrite map_length, combine_length. apply sget_In in G.
  assert (L : length w <= 4). { cbn in G. repeat (destruct G as [G|G]; [inv G; simpl; lia|]). contradiction. }
  lia.
Qed.

Definition move_text : str := $"from kitchen to the bedroom".
Definition go_text : str := $"go home".

Ltac fits := split; [vm_compute; reflexivity|]; intros i decls kept Hd (scope & es & Sc & (bes & ces & Eb & Ec & ->) & ->);
  apply scope_eq in Sc; subst scope; cbn in Hd;
  repeat (destruct Hd as [Hd|Hd]; [inv Hd; vm_compute in Eb, Ec; inv Eb; inv Ec; vm_compute; reflexivity|]); contradiction.
Lemma match_det_setting extra pattern input :
  is_ok (det_new demo_ext demo_lang match_compile id_order id_order id_order (match_dm extra pattern) demo_res) = true ->
  NoDup (map fst (dm_slots (match_dm extra pattern))) -> texts_fit demo_ext (match_dm extra pattern) demo_res input ->
  det_setting demo_ext demo_lang match_compile id_order id_order id_order (match_dm extra pattern) demo_res (match_dp extra pattern) input.
Proof.
  intros O N F. split; [apply get_ok_eq; exact O|]. split.
  { split; [repeat constructor; simpl; intuition discriminate|]. split; [exact N|constructor]. }
  split; [exact demo_tokenizer_ok|]. split; [apply demo_builtin_ok|]. split; [apply demo_custom_ok|]. split; [exact F|exact match_groups_fit].
Qed.
Lemma move_setting : det_setting demo_ext demo_lang match_compile id_order id_order id_order (match_dm [] $"home") demo_res
  (match_dp [] $"home") move_text.
Proof. apply match_det_setting; [vm_compute; reflexivity|repeat constructor; simpl; intuition discriminate|fits]. Qed.
Lemma unplaced_setting : det_setting demo_ext demo_lang match_compile id_order id_order id_order (match_dm [] $"unplaced") demo_res
  (match_dp [] $"unplaced") go_text.
Proof. apply match_det_setting; [vm_compute; reflexivity|repeat constructor; simpl; intuition discriminate|fits]. Qed.
Lemma orphan_setting : det_setting demo_ext demo_lang match_compile id_order id_order id_order (match_dm [($"orphan", [])] $"home") demo_res
  (match_dp [($"orphan", [])] $"home") go_text.
Proof. apply match_det_setting; [vm_compute; reflexivity|repeat constructor; simpl; intuition discriminate|fits]. Qed.
Lemma match_ready pattern input f : intents_ready demo_ext (match_dm [] pattern) demo_res input f.
Proof.
  intros i decls Hd _. cbn in Hd. split.
  - destruct Hd as [Hd|[Hd|[]]]; inv Hd; cbn; auto.
  - eexists. exists (det_scope demo_ext decls). eexists. split; [apply scope_eq; reflexivity|].
    split; [eexists; eexists; split; [|split]; reflexivity|reflexivity].
Qed.
Lemma home_declared : groups_declared match_compile (match_dm [] $"home").
Proof.
  intros i ps p r s caps n rg Hi Hp Ec E Hn.
  assert (K : forall w, demo_regex w s = Some caps -> exists w', In (Some n, w') w).
  { intros w H. unfold demo_regex in H. destruct (list_eqb _ _ _); [|discriminate]. inversion H; subst caps.
    unfold named_captures in Hn. cbn [tl] in Hn. apply in_flat_map in Hn as ([on og] & Hc & Q).
    destruct on as [n'|], og as [g|]; try contradiction. destruct Q as [Q|[]]. inv Q.
    apply in_map_iff in Hc as ([[a b] t] & Q & Hc). inv Q. apply in_combine_l in Hc. simpl in *. subst. eauto. }
  cbn in Hi. destruct Hi as [Hi|[Hi|[]]]; inv Hi; destruct Hp as [<-|[]].
  - change (Ok (demo_regex (snd (nth 0 match_patterns ([], [])))) = Ok r) in Ec. assert (Er : demo_regex (snd (nth 0 match_patterns ([], []))) = r) by congruence.
    rewrite <- Er in E. destruct (K _ E) as (w & Hw). simpl in Hw. destruct Hw as [Q|[Q|[Q|[Q|[]]]]]; inv Q; exists $"room", $"room".
    + exists $"group0", [($"room", $"room")]. split; [apply base_name_eq; reflexivity|repeat split].
    + exists $"group0", [($"room", $"room")]. split; [apply base_name_eq; reflexivity|repeat split].
  - change (Ok (demo_regex (snd (nth 2 match_patterns ([], [])))) = Ok r) in Ec. assert (Er : demo_regex (snd (nth 2 match_patterns ([], []))) = r) by congruence.
    rewrite <- Er in E. destruct (K _ E) as (w & Hw). simpl in Hw. destruct Hw as [Q|[Q|[]]]; inv Q.
    exists $"place", $"place", $"group2", [($"place", $"place")]. split; [apply base_name_eq; reflexivity|repeat split].
Qed.

(** An intent with slots and no pattern: no text is parsed, although other intents match. *)
Lemma det_orphan : exists x lang_of compile m res dp input r r',
  det_setting x lang_of compile id_order id_order id_order m res dp input /\
  ~ intents_ready x m res input None /\
  det_parse x id_order dp input None = Err r /\
  det_parse x id_order dp input (Some [$"go"]) = Ok r' /\ ir_name (pr_intent r') = Some $"go".
Proof.
  exists demo_ext, demo_lang, match_compile, (match_dm [($"orphan", [])] $"home"), demo_res, (match_dp [($"orphan", [])] $"home"), go_text,
    EOther, (get_ok no_ipr (det_parse demo_ext id_order (match_dp [($"orphan", [])] $"home") go_text (Some [$"go"]))).
  split; [exact orphan_setting|]. split.
  { intros H. destruct (H $"orphan" []) as [K _]; [cbn; auto|exact I|]. cbn in K. destruct K as [K|[K|[]]]; discriminate. }
  split; [vm_compute; reflexivity|]. split; [apply get_ok_eq; vm_compute; reflexivity|vm_compute; reflexivity].
Qed.
Lemma det_unplaced : exists x lang_of compile m res dp input,
  det_setting x lang_of compile id_order id_order id_order m res dp input /\ intents_ready x m res input None /\
  det_parse x id_order dp input None = Panic.
Proof.
  exists demo_ext, demo_lang, match_compile, (match_dm [] $"unplaced"), demo_res, (match_dp [] $"unplaced"), go_text.
  split; [exact unplaced_setting|]. split; [apply match_ready|vm_compute; reflexivity].
Qed.
