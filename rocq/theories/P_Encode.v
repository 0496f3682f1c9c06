(** The encoding of tags: UTF-8 then base64. *)
From Coq Require Import String List NArith ZArith Bool Arith Lia ZifyBool ZifyN.
From Verif Require Import Base M_Types M_Crf M_Features M_Filler S_Filler P_Base.
Import ListNotations.
Open Scope N_scope.

Lemma div_mod_64 n : n = 64 * (n / 64) + n mod 64 /\ n mod 64 < 64.
Proof. split; [apply N.div_mod'|apply N.mod_lt; lia]. Qed.

Ltac decide_all :=
  repeat match goal with
  | |- context [(?a <? ?b)%N] => destruct (N.ltb_spec a b); try lia
  | |- context [(?a <=? ?b)%N] => destruct (N.leb_spec a b); try lia
  | |- context [(?a =? ?b)%N] => destruct (N.eqb_spec a b); try lia
  end.

Definition scalar (c : N) : Prop := c < 55296 \/ (57344 <= c /\ c < 1114112).
Lemma is_scalar_spec c : is_scalar c = true <-> scalar c.
Proof. unfold is_scalar, scalar. lia. Qed.

Lemma utf8_decode_char c r : scalar c ->
  utf8_decode (utf8_char c ++ r) = option_map (cons c) (utf8_decode r).
Proof.
  intros Hc. pose proof (proj2 (is_scalar_spec c) Hc) as Hs. unfold scalar in Hc. unfold utf8_char.
  destruct (div_mod_64 c) as [E1 L1]. destruct (div_mod_64 (c / 64)) as [E2 L2].
  destruct (div_mod_64 (c / 64 / 64)) as [E3 L3].
  replace (c / 4096) with (c / 64 / 64) by (rewrite N.div_div by lia; reflexivity).
  replace (c / 262144) with (c / 64 / 64 / 64) by (rewrite !N.div_div by lia; reflexivity).
  set (q1 := c / 64) in *. set (q2 := q1 / 64) in *. set (q3 := q2 / 64) in *.
  set (e := c mod 64) in *. set (d := q1 mod 64) in *. set (b := q2 mod 64) in *.
  clearbody q3 e d b. clearbody q2. clearbody q1.
  destruct (N.ltb_spec c 128) as [H1|H1]; [|destruct (N.ltb_spec c 2048) as [H2|H2];
    [|destruct (N.ltb_spec c 65536) as [H3|H3]]]; cbn [app utf8_decode].
  - rewrite (proj2 (N.ltb_lt c 128)) by exact H1. reflexivity.
  - replace (192 + q1 <? 128) with false by lia.
    unfold is_cont. replace ((128 <=? 128 + e) && (128 + e <? 192)) with true by lia. cbn [negb].
    replace ((192 <=? 192 + q1) && (192 + q1 <? 224)) with true by lia.
    replace ((192 + q1 - 192) * 64 + (128 + e - 128)) with c by lia.
    replace (128 <=? c) with true by lia. reflexivity.
  - replace (224 + q2 <? 128) with false by lia.
    unfold is_cont. replace ((128 <=? 128 + d) && (128 + d <? 192)) with true by lia. cbn [negb].
    replace ((192 <=? 224 + q2) && (224 + q2 <? 224)) with false by lia.
    replace ((128 <=? 128 + e) && (128 + e <? 192)) with true by lia. cbn [negb].
    replace ((224 <=? 224 + q2) && (224 + q2 <? 240)) with true by lia.
    replace ((224 + q2 - 224) * 4096 + (128 + d - 128) * 64 + (128 + e - 128)) with c by lia.
    rewrite Hs. replace (2048 <=? c) with true by lia. reflexivity.
  - replace (240 + q3 <? 128) with false by lia.
    unfold is_cont. replace ((128 <=? 128 + b) && (128 + b <? 192)) with true by lia. cbn [negb].
    replace ((192 <=? 240 + q3) && (240 + q3 <? 224)) with false by lia.
    replace ((128 <=? 128 + d) && (128 + d <? 192)) with true by lia. cbn [negb].
    replace ((224 <=? 240 + q3) && (240 + q3 <? 240)) with false by lia.
    replace ((128 <=? 128 + e) && (128 + e <? 192)) with true by lia. cbn [negb].
    replace (240 <=? 240 + q3) with true by lia.
    replace ((240 + q3 - 240) * 262144 + (128 + b - 128) * 4096 + (128 + d - 128) * 64 + (128 + e - 128)) with c by lia.
    rewrite Hs. replace (65536 <=? c) with true by lia. reflexivity.
Qed.

Lemma utf8_round s : unicode s -> utf8_decode (utf8_encode s) = Some s.
Proof.
  induction s as [|c s IH]; intros H; [reflexivity|]. cbn [utf8_encode flat_map].
  rewrite utf8_decode_char by (apply H; left; reflexivity).
  fold (utf8_encode s). rewrite IH; [reflexivity|]. intros d Hd. apply H. right; exact Hd.
Qed.

Lemma utf8_bytes s b : unicode s -> In b (utf8_encode s) -> b < 256.
Proof.
  intros Hu Hb. unfold utf8_encode in Hb. apply in_flat_map in Hb. destruct Hb as (c & Hc & Hb).
  specialize (Hu c Hc). unfold utf8_char in Hb.
  destruct (div_mod_64 c) as [E1 L1]. destruct (div_mod_64 (c / 64)) as [E2 L2].
  destruct (div_mod_64 (c / 64 / 64)) as [E3 L3].
  replace (c / 4096) with (c / 64 / 64) in Hb by (rewrite N.div_div by lia; reflexivity).
  replace (c / 262144) with (c / 64 / 64 / 64) in Hb by (rewrite !N.div_div by lia; reflexivity).
  set (q1 := c / 64) in *. set (q2 := q1 / 64) in *. set (q3 := q2 / 64) in *.
  set (e := c mod 64) in *. set (d := q1 mod 64) in *. set (b' := q2 mod 64) in *.
  clearbody q3 e d b'. clearbody q2. clearbody q1.
  destruct (N.ltb_spec c 128) as [H1|H1]; [|destruct (N.ltb_spec c 2048) as [H2|H2];
    [|destruct (N.ltb_spec c 65536) as [H3|H3]]]; cbn [In] in Hb; lia.
Qed.

Lemma b64_value_char v : v < 64 -> b64_value (b64_char v) = Some v.
Proof.
  intros H. unfold b64_char.
  destruct (N.ltb_spec v 26); [|destruct (N.ltb_spec v 52); [|destruct (N.ltb_spec v 62); [|destruct (N.eqb_spec v 62)]]];
    unfold b64_value; repeat (match goal with |- context [if ?b then _ else _] => destruct b eqn:? end); try (f_equal; lia); lia.
Qed.
Lemma b64_char_ok v : v < 64 -> base64_char (b64_char v).
Proof.
  intros H. unfold b64_char, base64_char.
  destruct (N.ltb_spec v 26); [|destruct (N.ltb_spec v 52); [|destruct (N.ltb_spec v 62); [|destruct (N.eqb_spec v 62)]]]; lia.
Qed.

Ltac dm n k := let q := fresh "q" in let m := fresh "m" in let E := fresh "E" in let L := fresh "L" in
  assert (E : n = k * (n / k) + n mod k) by apply N.div_mod';
  assert (L : n mod k < k) by (apply N.mod_lt; lia);
  set (q := n / k) in *; set (m := n mod k) in *; clearbody q m.

Lemma div_eq a b q r : r < b -> a = b * q + r -> a / b = q.
Proof. intros H1 H2. symmetry. apply (N.div_unique a b q r); assumption. Qed.
Lemma mod_eq a b q r : r < b -> a = b * q + r -> a mod b = r.
Proof. intros H1 H2. symmetry. apply (N.mod_unique a b q r); assumption. Qed.

Lemma b64_round_3 l : forall n, (length l <= n)%nat -> (forall b, In b l -> b < 256) -> b64_decode (b64_encode l) = Some l.
Proof.
  intros n. revert l. induction n as [|n IH]; intros l Hn H.
  - destruct l; [reflexivity|simpl in Hn; lia].
  - destruct l as [|a [|b [|c r]]]; [reflexivity| | |].
    + pose proof (H a (or_introl eq_refl)) as Ha. cbn [b64_encode].
      dm a 4. cbn [b64_decode]. rewrite !b64_value_char by lia. unfold pad; cbn [b64_value N.eqb N.leb N.compare andb Pos.eqb].
      change (b64_value 61) with (@None N). cbn iota.
      rewrite (div_eq (m * 16) 16 m 0), (mod_eq (m * 16) 16 m 0) by lia.
      cbn [N.eqb Pos.eqb andb]. do 2 f_equal. lia.
    + pose proof (H a (or_introl eq_refl)) as Ha. pose proof (H b (or_intror (or_introl eq_refl))) as Hb. cbn [b64_encode].
      dm a 4. dm b 16. cbn [b64_decode]. rewrite !b64_value_char by lia.
      change (b64_value pad) with (@None N). cbn iota.
      rewrite (div_eq (m * 16 + q0) 16 m q0), (mod_eq (m * 16 + q0) 16 m q0) by lia.
      rewrite (div_eq (m0 * 4) 4 m0 0), (mod_eq (m0 * 4) 4 m0 0) by lia.
      unfold pad. cbn [N.eqb Pos.eqb andb]. f_equal. f_equal; [lia|]. f_equal; lia.
    + pose proof (H a (or_introl eq_refl)) as Ha. pose proof (H b (or_intror (or_introl eq_refl))) as Hb.
      pose proof (H c (or_intror (or_intror (or_introl eq_refl)))) as Hcc.
      change (b64_encode (a :: b :: c :: r)) with
        (b64_char (a / 4) :: b64_char (a mod 4 * 16 + b / 16) :: b64_char (b mod 16 * 4 + c / 64)
         :: b64_char (c mod 64) :: b64_encode r).
      dm a 4. dm b 16. dm c 64. cbn [b64_decode]. rewrite !b64_value_char by lia. cbn iota.
      rewrite IH; [|simpl in Hn; lia|intros x Hx; apply H; right; right; right; exact Hx].
      cbn [option_map].
      rewrite (div_eq (m * 16 + q0) 16 m q0), (mod_eq (m * 16 + q0) 16 m q0) by lia.
      rewrite (div_eq (m0 * 4 + q1) 4 m0 q1), (mod_eq (m0 * 4 + q1) 4 m0 q1) by lia.
      f_equal. f_equal; [lia|]. f_equal; [lia|]. f_equal. lia.
Qed.
Lemma b64_round l : (forall b, In b l -> b < 256) -> b64_decode (b64_encode l) = Some l.
Proof. apply b64_round_3 with (n := length l). reflexivity. Qed.

Lemma b64_alphabet l : forall n, (length l <= n)%nat -> (forall b, In b l -> b < 256) ->
  forall c, In c (b64_encode l) -> base64_char c.
Proof.
  assert (Hp : base64_char pad) by (unfold base64_char, pad; lia).
  intros n. revert l. induction n as [|n IH]; intros l Hn H ch Hc.
  - destruct l; [contradiction|simpl in Hn; lia].
  - destruct l as [|a [|b [|c r]]]; [contradiction| | |].
    + pose proof (H a (or_introl eq_refl)) as Ha. cbn [b64_encode] in Hc. dm a 4.
      destruct Hc as [<-|[<-|[<-|[<-|[]]]]]; try exact Hp; apply b64_char_ok; lia.
    + pose proof (H a (or_introl eq_refl)) as Ha. pose proof (H b (or_intror (or_introl eq_refl))) as Hb. cbn [b64_encode] in Hc.
      dm a 4. dm b 16.
      destruct Hc as [<-|[<-|[<-|[<-|[]]]]]; try exact Hp; apply b64_char_ok; lia.
    + pose proof (H a (or_introl eq_refl)) as Ha. pose proof (H b (or_intror (or_introl eq_refl))) as Hb.
      pose proof (H c (or_intror (or_intror (or_introl eq_refl)))) as Hcc.
      change (b64_encode (a :: b :: c :: r)) with
        (b64_char (a / 4) :: b64_char (a mod 4 * 16 + b / 16) :: b64_char (b mod 16 * 4 + c / 64)
         :: b64_char (c mod 64) :: b64_encode r) in Hc.
      dm a 4. dm b 16. dm c 64.
      destruct Hc as [<-|[<-|[<-|[<-|Hc]]]]; try (apply b64_char_ok; lia).
      apply (IH r); [simpl in Hn; lia| |exact Hc]. intros x Hx; apply H; right; right; right; exact Hx.
Qed.

Lemma tag_round t : unicode t -> decode_tag (encode_tag t) = Ok t.
Proof.
  intros H. unfold decode_tag, encode_tag. rewrite b64_round by (intros b; apply utf8_bytes; exact H).
  cbn [ok_or bind]. rewrite utf8_round by exact H. reflexivity.
Qed.
Lemma encode_tag_inj t t' : unicode t -> unicode t' -> encode_tag t = encode_tag t' -> t = t'.
Proof.
  intros H H' E. pose proof (tag_round t H) as E1. pose proof (tag_round t' H') as E2. rewrite E in E1. congruence.
Qed.
Lemma encode_tag_ascii t : unicode t -> forall c, In c (encode_tag t) -> base64_char c.
Proof.
  intros H c Hc. eapply b64_alphabet; [|intros b; apply (utf8_bytes t b H)|exact Hc]. reflexivity.
Qed.
