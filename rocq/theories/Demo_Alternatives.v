(** Examples for C94. *)
From Coq Require Import String List NArith ZArith Bool Arith Lia.
From Verif Require Import Base F32 M_Types M_Utils M_Engine M_Cache M_Feat M_Prob M_Crf M_Res M_Fs M_Json M_Load S_Base S_Engine S_Answer S_Made
  S_Alternatives S_Declared P_Base P_Engine P_Rules P_Made P_Alternatives Demo Demo_Rules Demo_Prob Demo_Crf Demo_Load Demo_Home Demo_Made Demo_Declared.
Import ListNotations.
Local Open Scope string_scope.
Local Open Scope list_scope.
Local Open Scope nat_scope.

(** Entities with up to three alternatives. *)
Definition more_custom (n : nat) (e : CustomEntity) : CustomEntity :=
  mkCE (ce_value e) (ce_resolved e) (firstn n [$"hall"; $"cellar"; $"attic"]) (ce_range e) (ce_entity e).
Definition more_builtin (n : nat) (e : BuiltinEntity) : BuiltinEntity :=
  mkBE (be_value e) (be_range e) (be_entity e) (firstn n [SVBuiltin $"1"; SVBuiltin $"2"; SVBuiltin $"3"]) (be_kind e).
Definition rich_gaz : str -> option (list str) -> nat -> outcome (list CustomEntity) := fun s scope n =>
  let* es := home_gaz s scope n in Ok (map (more_custom n) es).
Definition rich_builtin : str -> option (list kind) -> nat -> outcome (list BuiltinEntity) := fun s kinds n =>
  let* es := demo_builtin s kinds false n in Ok (map (more_builtin n) es).
Definition rich_loader : Loader :=
  mkLoader (fun c => sget c home_documents) home_f32 demo_lang (fun _ => $"en") demo_compile
           (fun _ _ => Ok rich_builtin) (fun _ _ => Ok rich_gaz)
           (fun f p => match f (resolve p) with Some (File _) => Ok demo_tagger | _ => Err EIo end).

Lemma maps_related {A} (R : A -> A -> Prop) (f g : A -> A) l : (forall a, R (f a) (g a)) -> Forall2 R (map f l) (map g l).
Proof. intros H. induction l; constructor; auto. Qed.
Lemma rich_apart : alternatives_apart rich_loader.
Proof.
  split.
  - intros f p b E s kinds n n'. cbn [rich_loader ld_builtin] in E. assert (E' := f_equal (get_ok b) E). cbn [get_ok] in E'. subst b. unfold rich_builtin, demo_builtin. cbn [bind same_outcome].
    apply maps_related. intros a. repeat split.
  - intros f p g E s names n n'. cbn [rich_loader ld_gazetteer] in E. assert (E' := f_equal (get_ok g) E). cbn [get_ok] in E'. subst g. unfold rich_gaz, home_gaz. cbn [bind same_outcome].
    apply maps_related. intros a. repeat split.
Qed.
Lemma rich_bounded : alternatives_bounded rich_loader.
Proof.
  split.
  - intros f p b E s kinds n es e R He. cbn [rich_loader ld_builtin] in E. assert (E' := f_equal (get_ok b) E). cbn [get_ok] in E'. subst b.
    unfold rich_builtin, demo_builtin in R. cbn [bind] in R. assert (R' := f_equal (get_ok []) R). cbn [get_ok] in R'. rewrite <- R' in He.
    apply in_map_iff in He as (u & <- & _). unfold more_builtin. cbn [be_alternatives]. apply firstn_le_length.
  - intros f p b E s kinds n es e R He. cbn [rich_loader ld_gazetteer] in E. assert (E' := f_equal (get_ok b) E). cbn [get_ok] in E'. subst b.
    unfold rich_gaz, home_gaz in R. cbn [bind] in R. assert (R' := f_equal (get_ok []) R). cbn [get_ok] in R'. rewrite <- R' in He.
    apply in_map_iff in He as (u & <- & _). unfold more_custom. cbn [ce_alternatives]. apply firstn_le_length.
Qed.

Definition load_rich : outcome Engine :=
  from_path demo_ext demo_shape no_ngrams demo_math rich_loader home_orders home_orders home dir_e.
Definition rich_engine : Engine := get_ok no_engine load_rich.
Lemma rich_eq : load_rich = Ok rich_engine.
Proof. apply get_ok_eq. vm_compute. reflexivity. Qed.
Definition rich_answer (n : nat) : ParseResult :=
  get_ok no_result (parse_with_alternatives demo_ext id_order id_order rich_engine turn_on None None 1 n).
Lemma rich_answers_0 : parse_with_alternatives demo_ext id_order id_order rich_engine turn_on None None 1 0 = Ok (rich_answer 0).
Proof. unfold rich_answer. apply get_ok_eq. vm_compute. reflexivity. Qed.
Lemma rich_answers_2 : parse_with_alternatives demo_ext id_order id_order rich_engine turn_on None None 1 2 = Ok (rich_answer 2).
Proof. unfold rich_answer. apply get_ok_eq. vm_compute. reflexivity. Qed.
Lemma rich_differ :
  map (fun s => (sl_value s, sl_alternatives s)) (ps_slots (rich_answer 0)) = [(SVCustom $"the living room", [])] /\
  map (fun s => (sl_value s, sl_alternatives s)) (ps_slots (rich_answer 2)) =
    [(SVCustom $"the living room", [SVCustom $"hall"; SVCustom $"cellar"])].
Proof. split; vm_compute; reflexivity. Qed.
