(** Proofs for C94: the number of slot alternatives. *)
From Coq Require Import String List NArith ZArith Bool Arith Lia.
From Verif Require Import Base F32 M_Types M_Utils M_Engine M_Cache M_Feat M_Prob M_Crf M_Res M_Fs M_Json M_Load S_Base S_Engine S_Answer S_Made S_Alternatives
  S_Declared P_Base P_Engine P_Rules P_Made.
Import ListNotations.
Local Open Scope nat_scope.

Lemma same_bind {A B C D} (R : A -> B -> Prop) (S : C -> D -> Prop) m m' k k' : same_outcome R m m' ->
  (forall a b, R a b -> same_outcome S (k a) (k' b)) -> same_outcome S (bind m k) (bind m' k').
Proof. destruct m, m'; cbn; intros H K; try contradiction; auto. Qed.
Lemma same_refl {A} (R : A -> A -> Prop) m : (forall a, R a a) -> same_outcome R m m.
Proof. intros H. destruct m; cbn; auto. Qed.
Lemma same_mapM {A B C D} (R : A -> B -> Prop) (S : C -> D -> Prop) f g l m : Forall2 R l m ->
  (forall a b, R a b -> same_outcome S (f a) (g b)) -> same_outcome (Forall2 S) (mapM f l) (mapM g m).
Proof.
  intros F H. induction F as [|a b l m Hab F IH]; cbn [mapM]; [constructor|].
  eapply same_bind; [apply H; exact Hab|]. intros c d Hcd. eapply same_bind; [exact IH|]. intros cs ds Hs. constructor; assumption.
Qed.
Lemma mapM_pointwise {A C D} (S : C -> D -> Prop) (f : A -> outcome C) (g : A -> outcome D) l :
  (forall a, same_outcome S (f a) (g a)) -> same_outcome (Forall2 S) (mapM f l) (mapM g l).
Proof.
  intros H. apply (same_mapM eq); [|intros a b ->; apply H]. induction l; constructor; auto.
Qed.

Lemma find_same {A B} (R : A -> B -> Prop) (f : A -> bool) (g : B -> bool) l m : Forall2 R l m ->
  (forall a b, R a b -> f a = g b) ->
  match find f l, find g m with Some a, Some b => R a b | None, None => True | _, _ => False end.
Proof.
  intros F H. induction F as [|a b l m Hab F IH]; cbn [find]; [exact Logic.I|]. rewrite <- (H a b Hab). destruct (f a); [exact Hab|exact IH].
Qed.
Lemma pop_same {A B} (R : A -> B -> Prop) l m : Forall2 R l m ->
  match vec_pop l, vec_pop m with Some a, Some b => R a b | None, None => True | _, _ => False end.
Proof.
  unfold vec_pop. intros F. induction F as [|a b l m Hab F IH]; [exact Logic.I|]. destruct F; [exact Hab|exact IH].
Qed.

Section Resources.
  Context (x : Ext) (en : Engine) (input : str) (n n' : nat).
  Context (B : forall s kinds c, same_outcome (Forall2 same_builtin) (rs_builtin (en_resources en) s kinds c n) (rs_builtin (en_resources en) s kinds c n')).
  Context (C : forall s names, same_outcome (Forall2 same_custom) (rs_custom (en_resources en) s names n) (rs_custom (en_resources en) s names n')).

  Lemma slot_resolved bes bes' ces ces' s : Forall2 same_builtin bes bes' -> Forall2 same_custom ces ces' ->
    same_outcome same_found (resolve_slot x en bes ces n s) (resolve_slot x en bes' ces' n' s).
  Proof.
    intros Fb Fc. unfold resolve_slot. destruct (sget _ _) as [ext|].
    - unfold resolve_custom_slot.
      apply (same_bind (fun a b => match a, b with Some u, Some v => same_custom u v | None, None => True | _, _ => False end)).
      + pose proof (find_same same_custom (fun e => str_eqb (ce_entity e) (is_entity s) && range_eqb (ce_range e) (is_range s))
            (fun e => str_eqb (ce_entity e) (is_entity s) && range_eqb (ce_range e) (is_range s)) ces ces' Fc) as K.
        specialize (K (fun a b (H : same_custom a b) => match H with conj _ (conj _ (conj R E)) => f_equal2 andb (f_equal (fun e => str_eqb e _) E) (f_equal (fun r => range_eqb r _) R) end)).
        destruct (find _ ces) as [u|], (find _ ces') as [v|]; try contradiction; [exact K|].
        eapply same_bind; [apply C|]. intros es es' F. cbn [same_outcome]. pose proof (pop_same same_custom es es' F) as P.
        destruct (vec_pop es) as [u|], (vec_pop es') as [v|]; try contradiction; [|exact Logic.I].
        destruct P as (P1 & P2). rewrite <- P1. destruct (_ =? _); [|exact Logic.I]. split; assumption.
      + intros u v K. cbn [same_outcome]. destruct u as [u|], v as [v|]; try contradiction.
        * destruct K as (K1 & K2 & K3 & K4). cbn. rewrite K2. repeat split.
        * destruct ext; cbn; repeat split.
    - unfold resolve_builtin_slot. eapply (same_bind eq); [apply same_refl; reflexivity|]. intros k ? <-.
      apply (same_bind (fun a b => match a, b with Some u, Some v => same_builtin u v | None, None => True | _, _ => False end)).
      + pose proof (find_same same_builtin (fun e => str_eqb (be_kind e) k && range_eqb (be_range e) (is_range s))
            (fun e => str_eqb (be_kind e) k && range_eqb (be_range e) (is_range s)) bes bes' Fb) as K.
        specialize (K (fun a b (H : same_builtin a b) => match H with conj _ (conj R (conj _ E)) => f_equal2 andb (f_equal (fun e => str_eqb e _) E) (f_equal (fun r => range_eqb r _) R) end)).
        destruct (find _ bes) as [u|], (find _ bes') as [v|]; try contradiction; [exact K|].
        eapply same_bind; [apply B|]. intros es es' F. exact (pop_same same_builtin es es' F).
      + intros u v K. cbn [same_outcome]. destruct u as [u|], v as [v|]; try contradiction; [|exact Logic.I].
        destruct K as (K1 & K2 & K3 & K4). cbn. unfold same_slot, convert_to_builtin_slot; cbn; rewrite ?K3; repeat split.
  Qed.

  Lemma present_same (l l' : list (option Slot)) : Forall2 same_found l l' ->
    same_slots (filter_map (fun o => o) l) (filter_map (fun o => o) l').
  Proof.
    intros F. unfold same_slots. induction F as [|a b l l' H F IH]; [constructor|]. cbn [filter_map].
    destruct a, b; try contradiction; [constructor; assumption|exact IH].
  Qed.

  Lemma slots_resolved slots : same_outcome same_slots (resolve_slots x en input slots n) (resolve_slots x en input slots n').
  Proof.
    unfold resolve_slots. destruct slots as [|s0 l]; [constructor|]. generalize (s0 :: l). intros slots.
    eapply same_bind; [apply B|]. intros bes bes' Fb. eapply same_bind; [apply C|]. intros ces ces' Fc.
    eapply same_bind; [apply mapM_pointwise; intros s; exact (slot_resolved bes bes' ces ces' s Fb Fc)|].
    intros a b F. exact (present_same a b F).
  Qed.

  Lemma slots_found intent : same_outcome same_slots (get_slots_with_alternatives x en input intent n) (get_slots_with_alternatives x en input intent n').
  Proof.
    unfold get_slots_with_alternatives. induction (en_parsers en) as [|p ps IH]; cbn [get_slots_loop]; [constructor|].
    eapply (same_bind eq); [apply same_refl; reflexivity|]. intros l ? <-. destruct l; [exact IH|apply slots_resolved].
  Qed.

  Lemma loop_same wl : forall ps sc, same_outcome (fun a b => same_answer a b /\ ps_alternatives a = [] /\ ps_alternatives b = [])
    (parse_loop x en input wl n sc ps) (parse_loop x en input wl n' sc ps).
  Proof.
    induction ps as [|p ps IH]; intros sc; cbn [parse_loop].
    - cbn. repeat split; constructor.
    - eapply (same_bind eq); [apply same_refl; reflexivity|]. intros r ? <-. destruct (ir_name (pr_intent r)); [|apply IH].
      eapply same_bind; [apply slots_resolved|]. intros a b F. cbn. repeat split; [exact F|constructor].
  Qed.

  Lemma answers_same o1 o2 w b k : same_outcome same_answer
    (parse_with_alternatives x o1 o2 en input w b k n) (parse_with_alternatives x o1 o2 en input w b k n').
  Proof.
    unfold parse_with_alternatives. eapply (same_bind eq); [apply same_refl; reflexivity|]. intros wl ? <-.
    eapply same_bind; [apply loop_same|]. intros u v (S & _ & _). destruct (k =? 0); [exact S|].
    eapply (same_bind eq); [apply same_refl; reflexivity|]. intros l ? <-.
    apply (same_bind (Forall2 (fun u v => al_intent u = al_intent v /\ same_slots (al_slots u) (al_slots v)))).
    - apply mapM_pointwise. intros r. unfold alternative_of. apply (same_bind same_slots).
      + destruct (ir_name r); [apply slots_found|constructor].
      + intros s t H. cbn. split; [reflexivity|exact H].
    - intros s t H. cbn [same_outcome]. destruct S as (S1 & S2 & S3 & _). repeat split; assumption.
  Qed.

  Lemma extracted_same intent slot : same_outcome same_found
    (extract_slot_with_alternatives x en input intent slot n) (extract_slot_with_alternatives x en input intent slot n').
  Proof.
    unfold extract_slot_with_alternatives. eapply (same_bind eq); [apply same_refl; reflexivity|]. intros mp ? <-.
    eapply (same_bind eq); [apply same_refl; reflexivity|]. intros e ? <-. destruct (sget e _) as [ext|].
    - unfold extract_custom_slot. eapply same_bind; [apply C|]. intros es es' F. pose proof (pop_same same_custom es es' F) as P.
      cbn [same_outcome]. destruct (vec_pop es) as [u|], (vec_pop es') as [v|]; try contradiction.
      + destruct P as (P1 & P2 & P3 & P4). cbn. rewrite P1, P2, P3. repeat split.
      + destruct ext; cbn; repeat split.
    - unfold extract_builtin_slot. eapply (same_bind eq); [apply same_refl; reflexivity|]. intros k ? <-.
      eapply same_bind; [apply B|]. intros es es' F. cbn [same_outcome]. destruct F as [|u v l l' P F]; [exact Logic.I|].
      destruct P as (P1 & P2 & P3 & P4). cbn. rewrite P2, P3. repeat split.
  Qed.
End Resources.

(** ** No more alternatives than asked for *)
Section Bound.
  Context (x : Ext) (en : Engine) (input : str) (n : nat).
  Context (B : forall s kinds c es e, rs_builtin (en_resources en) s kinds c n = Ok es -> In e es -> length (be_alternatives e) <= n).
  Context (C : forall s names es e, rs_custom (en_resources en) s names n = Ok es -> In e es -> length (ce_alternatives e) <= n).

  Definition few (s : Slot) : Prop := length (sl_alternatives s) <= n.

  Lemma pop_In {A} (l : list A) a : vec_pop l = Some a -> In a l.
  Proof.
    unfold vec_pop. induction l as [|b l IH]; [discriminate|]. destruct l as [|c l]; [intros H; inv H; left; reflexivity|].
    intros H. right. exact (IH H).
  Qed.

  Lemma slot_few bes ces s r : (forall e, In e bes -> length (be_alternatives e) <= n) -> (forall e, In e ces -> length (ce_alternatives e) <= n) ->
    resolve_slot x en bes ces n s = Ok (Some r) -> few r.
  Proof.
    intros Fb Fc H. unfold resolve_slot in H. destruct (sget _ _) as [ext|].
    - unfold resolve_custom_slot in H. bind_inv H. inv H. destruct a as [e|].
      + inv H1. unfold few. cbn [convert_to_custom_slot sl_alternatives fst snd]. rewrite map_length.
        destruct (find _ ces) as [u|] eqn:Ef; [inv E; apply find_some in Ef; apply Fc, Ef|].
        bind_inv E. inv E. destruct (vec_pop a) as [u|] eqn:Ep; [|discriminate].
        destruct (_ =? _); [|discriminate]. inv H0. eapply C; [exact E0|]. apply pop_In. exact Ep.
      + destruct ext; [|discriminate]. inv H1. unfold few. cbn. lia.
    - unfold resolve_builtin_slot in H. bind_inv H. bind_inv H. inv H. destruct a0 as [e|]; [|discriminate]. inv H1.
      unfold few. cbn [convert_to_builtin_slot sl_alternatives].
      destruct (find _ bes) as [u|] eqn:Ef; [inv E0; apply find_some in Ef; apply Fb, Ef|].
      bind_inv E0. inv E0. eapply B; [exact E1|]. apply pop_In. assumption.
  Qed.

  Lemma slots_few slots out : resolve_slots x en input slots n = Ok out -> forall s, In s out -> few s.
  Proof.
    unfold resolve_slots. destruct slots as [|s0 l]; [intros H; inv H; intros s []|]. generalize (s0 :: l). intros slots H.
    bind_inv H. bind_inv H. bind_inv H. inv H. intros s Hs. rewrite filter_map_present in Hs. apply In_present_inv in Hs.
    destruct (P_Rules.mapM_In _ _ _ _ E1 Hs) as (i & _ & R). refine (slot_few _ _ _ _ _ _ R).
    - intros e He. exact (B _ _ _ _ _ E He).
    - intros e He. exact (C _ _ _ _ E0 He).
  Qed.

  Lemma found_few intent : forall ps out, get_slots_loop x en input intent n ps = Ok out -> forall s, In s out -> few s.
  Proof.
    induction ps as [|p ps IH]; intros out H; cbn [get_slots_loop] in H; [inv H; intros s []|]. bind_inv H.
    destruct a as [|s0 l]; [exact (IH out H)|exact (slots_few _ _ H)].
  Qed.

  Lemma loop_few wl : forall ps sc res, parse_loop x en input wl n sc ps = Ok res ->
    ps_alternatives res = [] /\ forall s, In s (ps_slots res) -> few s.
  Proof.
    induction ps as [|p ps IH]; intros sc res H; cbn [parse_loop] in H; [inv H; split; [reflexivity|intros s []]|].
    bind_inv H. destruct (ir_name (pr_intent a)); [|exact (IH _ _ H)]. bind_inv H. inv H. split; [reflexivity|exact (slots_few _ _ E0)].
  Qed.

  Lemma answer_few o1 o2 w b k res oi s : parse_with_alternatives x o1 o2 en input w b k n = Ok res -> slot_of_answer res oi s -> few s.
  Proof.
    intros H A. unfold parse_with_alternatives in H. bind_inv H. bind_inv H. destruct (loop_few _ _ _ _ E0) as [Na F].
    destruct (k =? 0).
    - inv H. destruct A as [s Hs|al s Ha Hs]; [exact (F s Hs)|]. rewrite Na in Ha. destruct Ha.
    - bind_inv H. bind_inv H. inv H. destruct A as [s Hs|al s Ha Hs]; [exact (F s Hs)|]. cbn [ps_alternatives] in Ha.
      destruct (P_Rules.mapM_In _ _ _ _ E2 Ha) as (r & _ & Er). unfold alternative_of in Er. bind_inv Er. inv Er.
      cbn [al_slots] in Hs. destruct (ir_name r) as [i|]; [|inv E3; destruct Hs]. exact (found_few i _ _ E3 s Hs).
  Qed.

  Lemma extracted_few intent slot s : extract_slot_with_alternatives x en input intent slot n = Ok (Some s) -> few s.
  Proof.
    unfold extract_slot_with_alternatives. intros H. bind_inv H. bind_inv H. destruct (sget a0 _) as [ext|].
    - unfold extract_custom_slot in H. bind_inv H. inv H. destruct (vec_pop a1) as [u|] eqn:Ep.
      + inv H1. unfold few. cbn [sl_alternatives]. rewrite map_length. eapply C; [exact E1|]. apply pop_In. exact Ep.
      + destruct ext; [|discriminate]. inv H1. unfold few. cbn. lia.
    - unfold extract_builtin_slot in H. bind_inv H. bind_inv H. inv H. destruct a2 as [|u l]; [discriminate|]. inv H1.
      unfold few. cbn [sl_alternatives]. eapply B; [exact E2|]. left. reflexivity.
  Qed.
End Bound.

Section Loaded.
  Context (x : Ext) (shape : str -> str) (ngrams : list str -> nat -> list str) (mx : Math) (L : Loader)
          (fo : path -> orders) (uo : path -> nat -> HashOrder).

  Lemma custom_apart l gaz : (forall s names n n', same_outcome (Forall2 same_custom) (gaz s names n) (gaz s names n')) ->
    forall s names n n', same_outcome (Forall2 same_custom) (custom_entities x l gaz s names n) (custom_entities x l gaz s names n').
  Proof.
    intros H s names n n'. unfold custom_entities, custom_extract. eapply same_bind; [apply H|]. intros es es' F.
    apply (same_mapM _ _ _ _ _ _ F). intros a b (P1 & P2 & P3 & P4). rewrite P3.
    eapply (same_bind eq); [apply same_refl; reflexivity|]. intros r ? <-. cbn. repeat split; assumption.
  Qed.
  Lemma custom_bounded l gaz : (forall s names n es e, gaz s names n = Ok es -> In e es -> length (ce_alternatives e) <= n) ->
    forall s names n es e, custom_entities x l gaz s names n = Ok es -> In e es -> length (ce_alternatives e) <= n.
  Proof.
    intros H s names n es e R He. unfold custom_entities, custom_extract in R. bind_inv R.
    destruct (P_Rules.mapM_In _ _ _ _ R He) as (u & Hu & Ru). bind_inv Ru. inv Ru. cbn [ce_alternatives]. exact (H _ _ _ _ _ E Hu).
  Qed.

  Lemma loaded_apart f p en : alternatives_apart L -> from_path x shape ngrams mx L fo uo f p = Ok en ->
    (forall n n' s kinds c, same_outcome (Forall2 same_builtin) (rs_builtin (en_resources en) s kinds c n) (rs_builtin (en_resources en) s kinds c n')) /\
    (forall n n' s names, same_outcome (Forall2 same_custom) (rs_custom (en_resources en) s names n) (rs_custom (en_resources en) s names n')).
  Proof.
    intros [A1 A2] H. apply entity_parsers in H as (m & b & cm & l & gaz & _ & Eb & Rb & _ & _ & Eg & Rc). split.
    - intros n n' s kinds c. rewrite !Rb. exact (A1 _ _ _ Eb _ _ _ _).
    - intros n n' s names. rewrite Rc. apply custom_apart. exact (A2 _ _ _ Eg).
  Qed.
  Lemma loaded_bounded f p en : alternatives_bounded L -> from_path x shape ngrams mx L fo uo f p = Ok en ->
    (forall n s kinds c es e, rs_builtin (en_resources en) s kinds c n = Ok es -> In e es -> length (be_alternatives e) <= n) /\
    (forall n s names es e, rs_custom (en_resources en) s names n = Ok es -> In e es -> length (ce_alternatives e) <= n).
  Proof.
    intros [A1 A2] H. apply entity_parsers in H as (m & b & cm & l & gaz & _ & Eb & Rb & _ & _ & Eg & Rc). split.
    - intros n s kinds c es e. rewrite Rb. exact (A1 _ _ _ Eb _ _ _ _ _).
    - intros n s names. rewrite Rc. apply custom_bounded. exact (A2 _ _ _ Eg).
  Qed.

  Lemma parse_apart f p en o1 o2 input w b k n n' : alternatives_apart L -> from_path x shape ngrams mx L fo uo f p = Ok en ->
    same_outcome same_answer (parse_with_alternatives x o1 o2 en input w b k n) (parse_with_alternatives x o1 o2 en input w b k n').
  Proof. intros A H. destruct (loaded_apart f p en A H) as [B C]. exact (answers_same x en input n n' (B n n') (C n n') o1 o2 w b k). Qed.
  Lemma slots_apart f p en input i n n' : alternatives_apart L -> from_path x shape ngrams mx L fo uo f p = Ok en ->
    same_outcome same_slots (get_slots_with_alternatives x en input i n) (get_slots_with_alternatives x en input i n').
  Proof. intros A H. destruct (loaded_apart f p en A H) as [B C]. exact (slots_found x en input n n' (B n n') (C n n') i). Qed.
  Lemma extract_apart f p en input i s n n' : alternatives_apart L -> from_path x shape ngrams mx L fo uo f p = Ok en ->
    same_outcome same_found (extract_slot_with_alternatives x en input i s n) (extract_slot_with_alternatives x en input i s n').
  Proof. intros A H. destruct (loaded_apart f p en A H) as [B C]. exact (extracted_same x en input n n' (B n n') (C n n') i s). Qed.

  Lemma parse_bounded f p en o1 o2 input w b k n res oi s : alternatives_bounded L -> from_path x shape ngrams mx L fo uo f p = Ok en ->
    parse_with_alternatives x o1 o2 en input w b k n = Ok res -> slot_of_answer res oi s -> length (sl_alternatives s) <= n.
  Proof. intros A H. destruct (loaded_bounded f p en A H) as [B C]. exact (answer_few x en input n (B n) (C n) o1 o2 w b k res oi s). Qed.
  Lemma slots_bounded f p en input i n slots s : alternatives_bounded L -> from_path x shape ngrams mx L fo uo f p = Ok en ->
    get_slots_with_alternatives x en input i n = Ok slots -> In s slots -> length (sl_alternatives s) <= n.
  Proof. intros A H R. destruct (loaded_bounded f p en A H) as [B C]. exact (found_few x en input n (B n) (C n) i _ _ R s). Qed.
  Lemma extract_bounded f p en input i name n s : alternatives_bounded L -> from_path x shape ngrams mx L fo uo f p = Ok en ->
    extract_slot_with_alternatives x en input i name n = Ok (Some s) -> length (sl_alternatives s) <= n.
  Proof. intros A H. destruct (loaded_bounded f p en A H) as [B C]. exact (extracted_few x en input n (B n) (C n) i name s). Qed.
  Lemma none_asked f p en : alternatives_bounded L -> from_path x shape ngrams mx L fo uo f p = Ok en ->
    (forall o1 o2 input white black res, parse x o1 o2 en input white black = Ok res ->
       ps_alternatives res = [] /\ forall s, In s (ps_slots res) -> sl_alternatives s = []) /\
    (forall input intent slots s, get_slots x en input intent = Ok slots -> In s slots -> sl_alternatives s = []) /\
    (forall input intent slot s, extract_slot x en input intent slot = Ok (Some s) -> sl_alternatives s = []).
  Proof.
    intros A H. assert (Z : forall {V} (l : list V), length l <= 0 -> l = []) by (intros V [|v l] K; [reflexivity|cbn in K; lia]).
    split; [|split].
    - intros o1 o2 input white black res R. split.
      + unfold parse, parse_with_alternatives in R. bind_inv R. bind_inv R. cbn in R. inv R.
        destruct (loaded_bounded f p en A H) as [B C]. exact (proj1 (loop_few x en input 0 (B 0) (C 0) _ _ _ _ E0)).
      + intros s Hs. apply Z. exact (parse_bounded f p en o1 o2 input white black 0 0 res _ s A H R (main_slot _ _ Hs)).
    - intros input intent slots s R Hs. apply Z. exact (slots_bounded f p en input intent 0 slots s A H R Hs).
    - intros input intent slot s R. apply Z. exact (extract_bounded f p en input intent slot 0 s A H R).
  Qed.
End Loaded.
