(** Examples for C96. *)
From Coq Require Import String List NArith ZArith Bool Arith Lia.
From Verif Require Import Base F32 M_Types M_Utils M_Engine M_Det M_Lookup M_Feat M_Prob M_Crf M_Features M_Filler
  M_Cache M_Res M_Fs M_Json M_Load M_Inject S_Base S_Engine S_Load S_Made S_Narrow S_Intents S_Permits
  P_Base P_Engine P_Load P_Made P_Demo Demo Demo_Rules Demo_Prob Demo_Crf Demo_Load Demo_Home Demo_Made Demo_Declared Demo_Complete.
Import ListNotations.
Local Open Scope string_scope.
Local Open Scope list_scope.
Local Open Scope nat_scope.

(** ** A check that the intents that the parsers mention are in the dataset *)
Definition mentioned_c (L : Loader) (fo : path -> orders) (f : fs) (p : path) : list str :=
  get_ok [] (let* m := reads L fo f p $"intent_parser.json" d_deterministic in Ok (map fst (dm_patterns m) ++ map fst (dm_slots m))) ++
  get_ok [] (let* m := reads L fo f p $"intent_parser.json" d_lookup in Ok (lm_intents_names m ++ flat_map gs_intents (lm_scopes m))) ++
  get_ok [] (let* m := classifier_of L fo f p in Ok (named (clm_intents m))).
Definition declared_c (L : Loader) (fo : path -> orders) (f : fs) (p : path) (names : list str) : bool :=
  if_ok (reads L fo f p $"nlu_engine.json" d_engine) (fun m =>
    forallb (fun name => forallb (fun i => smem i names) (mentioned_c L fo f (pjoin p name))) (em_parsers m)).

Lemma mentioned_ok L fo f p i : parser_mentions L fo f p i -> In i (mentioned_c L fo f p).
Proof.
  unfold mentioned_c, classifier_of, reads. intros [(m & (_ & D) & Hi)|[(m & (_ & D) & Hi)|(cm & (_ & C) & Hi)]].
  - apply says_iff in D. rewrite D. cbn [bind get_ok]. apply in_or_app. left. apply in_or_app. exact Hi.
  - apply says_iff in D. rewrite D. cbn [bind get_ok]. apply in_or_app. right. apply in_or_app. left. apply in_or_app.
    destruct Hi as [Hi|(g & Hg & Hi)]; [left; exact Hi|right]. apply in_flat_map. eauto.
  - apply says_iff in C. rewrite C. cbn [bind get_ok]. apply in_or_app. right. apply in_or_app. right. unfold named. apply in_flat_map.
    exists (Some i). split; [exact Hi|left; reflexivity].
Qed.
Lemma declared_c_ok L fo f p names i : declared_c L fo f p names = true -> engine_mentions L fo f p i -> In i names.
Proof.
  intros H (m & name & M & Hn & Hi). apply says_iff in M. unfold declared_c, reads in H. rewrite M in H. cbn [if_ok] in H.
  rewrite forallb_forall in H. specialize (H name Hn). rewrite forallb_forall in H. apply smem_spec, H, mentioned_ok, Hi.
Qed.

(** ** The demo engine *)
Definition home_names : list str := [$"lightOn"; $"setTemp"].
Lemma home_knows i : known home_engine i <-> In i home_names.
Proof.
  assert (E : map fst (ds_slot_name_mappings (en_dataset home_engine)) = home_names) by (vm_compute; reflexivity).
  unfold known. rewrite <- E. split.
  - intros (mp & Hi). apply in_map_iff. exists (i, mp). auto.
  - intros Hi. apply in_map_iff in Hi as ([j mp] & <- & Hi). exists mp. exact Hi.
Qed.
Lemma home_mentions i : engine_mentions home_loader home_orders home dir_e i -> known home_engine i.
Proof. intros Hi. apply home_knows. eapply declared_c_ok; [|exact Hi]. vm_compute. reflexivity. Qed.
Lemma home_named l : (forall i, In i l -> In i home_names) -> names_known home_engine (Some l).
Proof. intros S l' i E Hi. injection E as <-. apply home_knows, S, Hi. Qed.

(** The whitelist [lightOn], twice, and the blacklist [setTemp]. *)
Lemma home_same : names_known home_engine (Some [$"lightOn"; $"lightOn"]) /\ names_known home_engine (Some [$"setTemp"]) /\
  forall i, known home_engine i -> (allowed (Some [$"lightOn"; $"lightOn"]) None i <-> allowed None (Some [$"setTemp"]) i).
Proof.
  split; [apply home_named; intros i [<-|[<-|[]]]; left; reflexivity|].
  split; [apply home_named; intros i [<-|[]]; right; left; reflexivity|].
  intros i Hi. apply home_knows in Hi. unfold allowed. destruct Hi as [<-|[<-|[]]].
  - split; intros _; split; intros l E; try discriminate E; injection E as <-; [intros [Q|[]]; discriminate Q|left; reflexivity].
  - split; intros [A B]; exfalso.
    + destruct (A _ eq_refl) as [Q|[Q|[]]]; discriminate Q.
    + apply (B _ eq_refl). left. reflexivity.
Qed.
Lemma home_permits i : permits home_engine (Some [$"lightOn"; $"lightOn"]) None i <-> permits home_engine None (Some [$"setTemp"]) i.
Proof.
  destruct home_same as (_ & _ & A). specialize (A i). unfold permits.
  assert (N1 : ~ (Some [$"lightOn"; $"lightOn"] = None /\ @None (list str) = None)) by (intros [Q _]; discriminate Q).
  assert (N2 : ~ (@None (list str) = None /\ Some [$"setTemp"] = None)) by (intros [_ Q]; discriminate Q).
  tauto.
Qed.
Lemma home_all : names_known home_engine (Some home_names) /\ forall l i, Some home_names = Some l -> known home_engine i -> In i l.
Proof. split; [apply home_named; auto|]. intros l i E Hi. injection E as <-. apply home_knows. exact Hi. Qed.

(** ** A dataset that does not list all intents *)
Definition partial_dataset : json :=
  obj [("language_code", txt "en");
       ("entities", obj [("room", obj [("automatically_extensible", JBool true)]);
                         ("color", obj [("automatically_extensible", JBool false)])]);
       ("slot_name_mappings", obj [("setTemp", obj [("room", txt "room"); ("degrees", txt "snips/number")])])].
Definition partial_loader : Loader := with_main (changed "dataset_metadata" partial_dataset).
Definition load_part : outcome Engine :=
  from_path demo_ext demo_shape no_ngrams demo_math partial_loader home_orders home_orders home dir_e.
Definition part_engine : Engine := get_ok no_engine load_part.
Lemma part_eq : load_part = Ok part_engine.
Proof. apply get_ok_eq. vm_compute. reflexivity. Qed.
Definition part_intent (b : option (list str)) : option str :=
  get_ok None (let* r := parse_with_alternatives demo_ext id_order id_order part_engine $"light on in the KITCHEN" None b 0 0 in Ok (ir_name (ps_intent r))).
Lemma part_differs : part_intent None = Some $"lightOn" /\ part_intent (Some []) <> Some $"lightOn".
Proof. split; [vm_compute; reflexivity|]. intros E. vm_compute in E. discriminate E. Qed.
Lemma nothing_forbidden :
  ~ (forall x shape ngrams mx L fo uo f p en o1 o2 input n salts,
       from_path x shape ngrams mx L fo uo f p = Ok en ->
       parse_with_alternatives x o1 o2 en input None (Some []) n salts = parse_with_alternatives x o1 o2 en input None None n salts).
Proof.
  intros H. pose proof (H demo_ext demo_shape no_ngrams demo_math partial_loader home_orders home_orders home dir_e part_engine id_order id_order
    $"light on in the KITCHEN" 0 0 part_eq) as E. destruct part_differs as [A B]. apply B. unfold part_intent in *. rewrite E. exact A.
Qed.
