(** The demonstration tokenizer meets the contract of the tokenizer. *)
From Coq Require Import List NArith ZArith Bool Lia Arith Sorted.
From Verif Require Import Base M_Types Demo S_Base S_Det P_Base P_Engine P_Utils.
Import ListNotations.

Lemma byte_len_app a b : byte_len (a ++ b) = byte_len a + byte_len b.
Proof. induction a; simpl; lia. Qed.

Lemma byte_len_rev a : byte_len (rev a) = byte_len a.
Proof. induction a; simpl; auto. rewrite byte_len_app. simpl. lia. Qed.

Lemma substring_mid (a b c : str) : substring (a ++ b ++ c) (length a, length a + length b) = b.
Proof.
  replace (length a, length a + length b) with (length a + 0, length a + length b) by (f_equal; lia).
  rewrite substring_app_skip, substring_app_left by auto. apply substring_full.
Qed.

Lemma demo_flush_ok (pre cur s : str) : cur <> [] ->
  token_ok (pre ++ rev cur ++ s)
    (mkTok (rev cur) (byte_len (pre ++ rev cur) - byte_len cur, byte_len (pre ++ rev cur))
           (length (pre ++ rev cur) - length cur, length (pre ++ rev cur))).
Proof.
  intros N. assert (L : 0 < length cur) by (destruct cur; [congruence|simpl; lia]).
  rewrite byte_len_app, byte_len_rev, !app_length, rev_length.
  replace (length pre + length cur - length cur) with (length pre) by lia.
  replace (byte_len pre + byte_len cur - byte_len cur) with (byte_len pre) by lia.
  split; [|split]; cbn [tk_char_range tk_value tk_range].
  - split; simpl; rewrite ?app_length, ?rev_length; lia.
  - rewrite <- (rev_length cur). symmetry. apply substring_mid.
  - cbn [rstart rend fst snd]. f_equal.
    + rewrite firstn_app, Nat.sub_diag, firstn_all. simpl. rewrite app_nil_r. reflexivity.
    + rewrite app_assoc, firstn_app.
      replace (length pre + length cur) with (length (pre ++ rev cur)) by (rewrite app_length, rev_length; lia).
      rewrite Nat.sub_diag, firstn_all. simpl. rewrite app_nil_r, byte_len_app, byte_len_rev. reflexivity.
Qed.

Lemma demo_tok_ok s : forall pre cur,
  let ts := demo_tok s (byte_len (pre ++ rev cur)) (length (pre ++ rev cur)) cur in
  (forall t, In t ts -> token_ok (pre ++ rev cur ++ s) t /\ length pre <= rstart (tk_char_range t)) /\
  StronglySorted (fun a b => rend (tk_char_range a) <= rstart (tk_char_range b)) ts.
Proof.
  induction s as [|ch s IH]; intros pre cur; cbv zeta.
  - destruct cur as [|c cur]; cbn [demo_tok]; [split; [contradiction|constructor]|].
    set (cu := c :: cur). split; [|repeat constructor].
    intros t [<-|[]]. split; [apply demo_flush_ok; discriminate|].
    cbn [tk_char_range rstart fst]. rewrite app_length, rev_length. lia.
  - cbn [demo_tok]. destruct (ch =? space)%N eqn:E.
    + apply N.eqb_eq in E. subst ch.
      destruct (IH (pre ++ rev cur ++ [space]) []) as [IH1 IH2].
      simpl rev in IH1, IH2. rewrite app_nil_r in IH1, IH2.
      rewrite !byte_len_app, !app_length in IH1, IH2.
      change (byte_len [space]) with 1 in *. simpl length in IH1, IH2.
      rewrite !app_length, !byte_len_app, <- !Nat.add_assoc.
      assert (IH1' : forall t, In t (demo_tok s (byte_len pre + (byte_len (rev cur) + 1)) (length pre + (length (rev cur) + 1)) []) ->
                     token_ok (pre ++ rev cur ++ space :: s) t /\ length pre + length (rev cur) <= rstart (tk_char_range t)).
      { intros t Ht. apply IH1 in Ht as [H1 H2]. split; [|lia].
        replace (pre ++ rev cur ++ space :: s) with ((pre ++ rev cur ++ [space]) ++ [] ++ s); auto.
        simpl. rewrite <- !app_assoc. reflexivity. }
      destruct cur as [|c cur].
      * simpl app in *. split; auto. intros t Ht. apply IH1' in Ht. simpl in Ht. split; [tauto|lia].
      * set (cu := c :: cur) in *. split.
        -- intros t Ht. apply in_app_or in Ht as [[<-|[]]|Ht].
           ++ split.
              ** assert (F := demo_flush_ok pre cu (space :: s)). rewrite !app_length, !byte_len_app in F.
                 apply F. discriminate.
              ** cbn [tk_char_range rstart fst]. rewrite rev_length. lia.
           ++ apply IH1' in Ht. split; [tauto|lia].
        -- apply SS_app. split; [repeat constructor|]. split; auto.
           intros a b [<-|[]] Hb. cbn [tk_char_range rend snd]. apply IH1' in Hb. lia.
    + destruct (IH pre (ch :: cur)) as [IH1 IH2]. simpl rev in IH1, IH2.
      rewrite !byte_len_app, !app_length in IH1, IH2. simpl in IH1, IH2.
      rewrite !byte_len_app, !app_length.
      replace (byte_len pre + byte_len (rev cur) + utf8_len ch) with
              (byte_len pre + (byte_len (rev cur) + (utf8_len ch + 0))) by lia.
      replace (length pre + length (rev cur) + 1) with (length pre + (length (rev cur) + 1)) by lia.
      split; auto. intros t Ht. apply IH1 in Ht as [H1 H2]. split; auto.
      rewrite <- app_assoc in H1. exact H1.
Qed.

Lemma demo_tokenize_ok s : tokens_ok s (demo_tokenize s).
Proof.
  destruct (demo_tok_ok s [] []) as [H1 H2]. split.
  - intros t Ht. apply H1. exact Ht.
  - apply (sorted_nth (fun a b => rend (tk_char_range a) <= rstart (tk_char_range b))). exact H2.
Qed.

Lemma demo_tokenizer_ok : tokenizer_ok demo_ext.
Proof. intros l s. apply demo_tokenize_ok. Qed.
