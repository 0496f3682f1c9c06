(** Proofs for C80: what an engine asks, and what poisoned locks answer. *)
From Coq Require Import String List NArith ZArith Bool Arith Lia.
From Verif Require Import Base F32 M_Types M_Engine M_Prob M_Filler M_Cache M_Res M_Fs M_Json M_Load M_Threads
  S_Made S_Threads P_Base P_Made P_Arc.
Import ListNotations.
Local Open Scope nat_scope.

Lemma engine_asks x shape ngrams mx L fo uo f p o en :
  engine_asking x shape ngrams mx L fo uo f p o = Ok en -> asks_for_everything x shape ngrams mx L fo uo f p o en.
Proof.
  unfold engine_asking. intros H. bind_inv H. bind_inv H. bind_inv H. injection H as <-.
  unfold asks_for_everything. cbn [en_resources en_parsers plug rs_builtin rs_custom].
  split; [reflexivity|]. split; [reflexivity|]. exists a, (plug_taggers o L f).
  split; [|split; [reflexivity|split]].
  - unfold load_model in E. cbv zeta in E. bind_inv E. apply (says_iff L fo f) in E. exact E.
  - intros file t H. cbn [plug_taggers ld_tagger] in H. bind_inv H. injection H as <-. reflexivity.
  - unfold load_intent_parsers in E1. apply mapM_ok_Forall2 in E1. revert E1. apply Forall2_conv.
    intros name ip _ H. cbv zeta in H. apply parser_iff. exact H.
Qed.

Lemma put_same {A} (l : list A) i a b : nth_error l i = Some b -> nth_error (put l i a) i = Some a.
Proof.
  intros H. unfold put. assert (i < length l) by (apply nth_error_Some; congruence).
  rewrite nth_error_app2; rewrite firstn_length_le by lia; [|lia]. rewrite Nat.sub_diag. reflexivity.
Qed.

Lemma poisoned_refuses pt {R} (programs : list (list (method (R := R)))) s s' i l q a :
  reach pt programs s -> ts_poisoned s l = true -> tstep pt i s s' ->
  received s' i = received s i ++ [(q, a)] -> lock_of q = Some l -> refused a.
Proof.
  intros Hr HP St Rc Lq. destruct (poison_for_ever _ _ _ _ Hr HP) as [NH _].
  assert (App : forall A (t : list A) b, t <> t ++ [b]).
  { intros A t b E. apply (f_equal (@length _)) in E. rewrite app_length in E. simpl in E. lia. }
  assert (Last : forall A (t : list A) b c, t ++ [b] = t ++ [c] -> b = c).
  { intros A t b c E. apply app_inv_head in E. congruence. }
  unfold received in Rc. inversion St; subst; cbn [ts_workers ts_poisoned] in *;
    match goal with H : nth_error ?ws i = Some _ |- _ => rewrite (put_same _ _ _ _ H), H in Rc; cbn [wk_position] in Rc end.
  - destruct (App _ _ _ (eq_trans Rc eq_refl)).
  - apply Last in Rc. injection Rc as <- _. congruence.
  - apply Last in Rc. injection Rc as <- <-. destruct q0; [left|right; left|right; right; eexists]; reflexivity.
  - destruct (App _ _ _ Rc).
  - destruct (App _ _ _ Rc).
  - apply Last in Rc. injection Rc as <- <-. exfalso. apply (NH i).
    exists tr, q0, (Done a0), todo, dn. split; [assumption|]. exact Lq.
  - destruct tr; discriminate.
Qed.

Lemma panicking_poisons pt {R} (programs : list (list (method (R := R)))) s s' i l q a :
  tstep pt i s s' -> received s' i = received s i ++ [(q, a)] -> lock_of q = Some l -> panicked a ->
  reach pt programs s -> ts_poisoned s' l = true.
Proof.
  intros St Rc Lq Pa _.
  assert (App : forall A (t : list A) b, t <> t ++ [b]).
  { intros A t b E. apply (f_equal (@length _)) in E. rewrite app_length in E. simpl in E. lia. }
  assert (Last : forall A (t : list A) b c, t ++ [b] = t ++ [c] -> b = c).
  { intros A t b c E. apply app_inv_head in E. congruence. }
  unfold received in Rc. inversion St; subst; cbn [ts_workers ts_poisoned] in *;
    match goal with H : nth_error ?ws i = Some _ |- _ => rewrite (put_same _ _ _ _ H), H in Rc; cbn [wk_position] in Rc end.
  - destruct (App _ _ _ (eq_trans Rc eq_refl)).
  - apply Last in Rc. injection Rc as <- _. congruence.
  - apply Last in Rc. injection Rc as <- <-. congruence.
  - destruct (App _ _ _ Rc).
  - destruct (App _ _ _ Rc).
  - apply Last in Rc. injection Rc as <- <-.
    assert (E : is_panic a0 = true) by (destruct Pa as [->|[->| ->]]; reflexivity). rewrite E.
    replace l0 with l by congruence. unfold set_poison. destruct (lock_eq_dec l l); [reflexivity|contradiction].
  - destruct tr; discriminate.
Qed.
