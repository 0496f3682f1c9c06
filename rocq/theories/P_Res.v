(** Proofs for the resource files. *)
From Coq Require Import String List NArith ZArith Bool Arith Lia.
From Coq Require DecimalString DecimalN DecimalPos DecimalFacts.
From Verif Require Import Base M_Types M_Res S_Res P_Base.
Import ListNotations.
Local Open Scope nat_scope.

(** ** Lines *)
Lemma strip_cr_cases s : (exists s', s = s' ++ [carriage_return] /\ strip_cr s = s') \/
  ((~ exists s', s = s' ++ [carriage_return]) /\ strip_cr s = s).
Proof.
  induction s as [|c r IH].
  - right. split; [|reflexivity]. intros (s' & H). destruct s'; discriminate.
  - destruct r as [|d r].
    + cbn [strip_cr]. destruct (N.eqb_spec c carriage_return) as [->|Hc].
      * left. exists []. split; reflexivity.
      * right. split; [|reflexivity]. intros (s' & H). destruct s' as [|e s']; [injection H as ->; congruence|].
        injection H as _ H. destruct s'; discriminate.
    + cbn [strip_cr] in *. destruct IH as [(s' & H1 & H2)|(H1 & H2)].
      * left. exists (c :: s'). split; [rewrite H1; reflexivity|]. f_equal. exact H2.
      * right. split; [|f_equal; exact H2]. intros (s' & H). apply H1. destruct s' as [|e s']; [discriminate|].
        injection H as _ H. exists s'. exact H.
Qed.

(** ** Splitting *)
Section Split.
  Context (sep : char -> bool).
  Lemma split_on_ne s : split_on sep s <> [].
  Proof. destruct s as [|c r]; cbn; [discriminate|]. destruct (sep c); [discriminate|]. destruct (split_on sep r); discriminate. Qed.
  Lemma split_on_app_sep a c b : Forall (fun c => sep c = false) a -> sep c = true ->
    split_on sep (a ++ c :: b) = a :: split_on sep b.
  Proof.
    intros Ha Hc. induction Ha as [|d a Hd Ha IH]; cbn [app split_on].
    - rewrite Hc. reflexivity.
    - rewrite Hd, IH. reflexivity.
  Qed.
  Lemma split_on_plain a : Forall (fun c => sep c = false) a -> split_on sep a = [a].
  Proof. induction 1 as [|d a Hd Ha IH]; cbn [split_on]; [reflexivity|]. rewrite Hd, IH. reflexivity. Qed.
  Lemma split_on_elems s : Forall (Forall (fun c => sep c = false)) (split_on sep s).
  Proof.
    induction s as [|c r IH]; cbn [split_on]; [repeat constructor|].
    destruct (sep c) eqn:E; [constructor; [constructor|exact IH]|].
    destruct (split_on sep r); [repeat constructor; exact E|]. inversion_clear IH. constructor; [constructor; assumption|assumption].
  Qed.
End Split.

Lemma split_on_join d fields : fields <> [] -> Forall (fun f => ~ In d f) fields ->
  split_on (fun c => (c =? d)%N) (join [d] fields) = fields.
Proof.
  intros Hne H. induction H as [|f fs Hf Hfs IH]; [congruence|].
  assert (Hf' : Forall (fun c => (c =? d)%N = false) f).
  { apply Forall_forall. intros c Hc. apply N.eqb_neq. intros ->. exact (Hf Hc). }
  destruct fs as [|g fs].
  - cbn [join]. apply split_on_plain. exact Hf'.
  - change (join [d] (f :: g :: fs)) with (f ++ d :: join [d] (g :: fs)).
    rewrite split_on_app_sep; [|exact Hf'|apply N.eqb_refl]. f_equal. apply IH. discriminate.
Qed.
Lemma join_split_on d s : join [d] (split_on (fun c => (c =? d)%N) s) = s.
Proof.
  induction s as [|c r IH]; [reflexivity|]. cbn [split_on]. pose proof (split_on_ne (fun c => (c =? d)%N) r) as Hne.
  destruct (N.eqb_spec c d) as [->|Hc].
  - destruct (split_on (fun c => (c =? d)%N) r) as [|f fs]; [congruence|].
    change (join [d] ([] :: f :: fs)) with ([] ++ d :: join [d] (f :: fs)). rewrite IH. reflexivity.
  - destruct (split_on (fun c => (c =? d)%N) r) as [|f fs]; [congruence|].
    destruct fs; cbn [join app] in *; rewrite <- IH; reflexivity.
Qed.
Lemma fields_iff d line fields : has_fields d line fields <-> fields = split_on (fun c => (c =? d)%N) line.
Proof.
  split.
  - intros (H1 & H2 & H3). subst line. symmetry. apply split_on_join; assumption.
  - intros ->. split; [apply split_on_ne|]. split; [apply join_split_on|].
    pose proof (split_on_elems (fun c => (c =? d)%N) line) as H. rewrite Forall_forall in *.
    intros f Hf Hin. specialize (H f Hf). rewrite Forall_forall in H. specialize (H d Hin). cbn in H. rewrite N.eqb_refl in H. discriminate.
Qed.

(** ** Records *)
Definition brk (c : char) : bool := (c =? newline)%N || (c =? carriage_return)%N.
Lemma brk_iff c : brk c = true <-> line_break c.
Proof. unfold brk, line_break. rewrite orb_true_iff, !N.eqb_eq. reflexivity. Qed.
Lemma brk_false c : brk c = false <-> ~ line_break c.
Proof. rewrite <- brk_iff. destruct (brk c); split; congruence. Qed.

Lemma csv_lines_break c s : line_break c -> csv_lines (c :: s) = csv_lines s.
Proof.
  intros H. unfold csv_lines. cbn [split_on]. change ((c =? newline)%N || (c =? carriage_return)%N) with (brk c).
  rewrite (proj2 (brk_iff c) H). reflexivity.
Qed.
Lemma csv_lines_breaks bs s : Forall line_break bs -> csv_lines (bs ++ s) = csv_lines s.
Proof. induction 1 as [|b bs Hb Hbs IH]; [reflexivity|]. cbn [app]. rewrite csv_lines_break by exact Hb. exact IH. Qed.
Lemma plain_line l : Forall (fun c => ~ line_break c) l -> Forall (fun c => brk c = false) l.
Proof. apply Forall_impl. intros c. apply brk_false. Qed.

Lemma broken_csv text ls : broken_into text ls -> csv_lines text = ls.
Proof.
  induction 1 as [bs Hb|bs l Hb Hl Hp|bs l b text ls Hb Hl Hp Hbr _ IH].
  - rewrite <- (app_nil_r bs). rewrite csv_lines_breaks by exact Hb. reflexivity.
  - rewrite csv_lines_breaks by exact Hb. unfold csv_lines. change (fun c => (c =? newline)%N || (c =? carriage_return)%N) with brk.
    rewrite split_on_plain by (apply plain_line; exact Hp). cbn. destruct l; [congruence|reflexivity].
  - rewrite csv_lines_breaks by exact Hb. unfold csv_lines. change (fun c => (c =? newline)%N || (c =? carriage_return)%N) with brk.
    rewrite split_on_app_sep; [|apply plain_line; exact Hp|apply brk_iff; exact Hbr]. cbn [filter].
    destruct l; [congruence|]. f_equal. exact IH.
Qed.
Lemma csv_broken text : broken_into text (csv_lines text).
Proof.
  assert (H : forall n text, length text <= n -> broken_into text (csv_lines text)).
  { induction n as [|n IH]; intros s Hs.
    - destruct s; [|cbn in Hs; lia]. apply (broken_nil []). constructor.
    - assert (Hspan : forall s, exists a r, s = a ++ r /\ Forall (fun c => brk c = false) a /\
                                 (r = [] \/ exists c r', r = c :: r' /\ brk c = true)).
      { clear. intros z. induction z as [|c s' IHs]; [exists [], []; repeat split; [constructor|left; reflexivity]|].
        destruct (brk c) eqn:E.
        - exists [], (c :: s'). split; [reflexivity|]. split; [constructor|]. right. exists c, s'. split; [reflexivity|exact E].
        - destruct IHs as (a & r & -> & Ha & Hr). exists (c :: a), r. split; [reflexivity|]. split; [constructor; assumption|exact Hr]. }
      destruct s as [|c s]; [apply (broken_nil []); constructor|]. cbn [length] in Hs.
      destruct (brk c) eqn:E.
      + rewrite csv_lines_break by (apply brk_iff; exact E).
        assert (HI : broken_into s (csv_lines s)) by (apply IH; lia).
        apply brk_iff in E. inversion HI as [bs Hb Heq|bs l Hb Hl Hp Heq|bs l b t ls Hb Hl Hp Hbr Ht Heq].
        * subst s. apply (broken_nil (c :: bs)). constructor; assumption.
        * apply (broken_last (c :: bs) l); [constructor; assumption|assumption|assumption].
        * apply (broken_cons (c :: bs) l b t ls); [constructor; assumption|assumption|assumption|assumption|assumption].
      + destruct (Hspan (c :: s)) as (a & r & Heq & Ha & Hr).
        assert (Hane : a <> []). { intros ->. cbn in Heq. subst r. destruct Hr as [Hr|(d & r' & Hr & Hd)]; [discriminate|]. injection Hr as -> ->. congruence. }
        assert (Hp : Forall (fun c => ~ line_break c) a) by (revert Ha; apply Forall_impl; intros d; apply brk_false).
        assert (Hlen : length (c :: s) = length a + length r) by (rewrite Heq; apply app_length). cbn [length] in Hlen.
        rewrite Heq. unfold csv_lines. change (fun c => (c =? newline)%N || (c =? carriage_return)%N) with brk.
        destruct Hr as [->|(d & r' & -> & Hd)].
        * rewrite app_nil_r, split_on_plain by exact Ha. cbn [filter]. destruct a as [|a0 a]; [congruence|].
          apply (broken_last [] (a0 :: a)); [constructor|discriminate|exact Hp].
        * rewrite split_on_app_sep by assumption. cbn [filter]. destruct a as [|a0 a]; [congruence|].
          apply (broken_cons [] (a0 :: a) d r'); [constructor|discriminate|exact Hp|apply brk_iff; exact Hd|].
          apply IH. cbn [length] in *. lia. }
  apply (H (length text)). lia.
Qed.

Lemma table_iff d text rows : is_table d text rows <-> rows = csv_records d text.
Proof.
  unfold csv_records. split.
  - intros (ls & Hb & Hf). apply broken_csv in Hb. rewrite Hb. clear Hb.
    induction Hf as [|l r ls rs Hl Hr IH]; [reflexivity|]. cbn [map]. f_equal; [apply fields_iff; exact Hl|exact IH].
  - intros ->. exists (csv_lines text). split; [apply csv_broken|].
    induction (csv_lines text) as [|l ls IH]; [constructor|]. constructor; [apply fields_iff; reflexivity|exact IH].
Qed.
Lemma csv_records_ne d text row : In row (csv_records d text) -> row <> [].
Proof. unfold csv_records. intros H. apply in_map_iff in H. destruct H as (l & <- & _). apply split_on_ne. Qed.

(** ** Stems *)
Section Stems.
  Context (hash : str -> Z).

  Lemma words_get (stem : str) ws (m : list (Z * str)) h :
    hget Z.eqb h (fold_left (fun m value => hinsert Z.eqb (hash value) stem m) ws m) =
    if existsb (fun w => (hash w =? h)%Z) ws then Some stem else hget Z.eqb h m.
  Proof.
    revert m. induction ws as [|w ws IH]; intros m; [reflexivity|]. cbn [fold_left existsb]. rewrite IH.
    destruct (existsb (fun w => (hash w =? h)%Z) ws); [rewrite orb_true_r; reflexivity|]. rewrite orb_false_r.
    destruct (Z.eqb_spec (hash w) h) as [<-|Hne].
    - apply hget_insert_eq. exact Z.eqb_eq.
    - apply hget_insert_neq; [exact Z.eqb_eq|]. congruence.
  Qed.
  Lemma lists_iff row h : existsb (fun w => (hash w =? h)%Z) (skipn 1 row) = true <-> row_lists hash row h.
  Proof.
    rewrite existsb_exists. unfold row_lists. split; intros (w & H1 & H2); exists w; (split; [exact H1|]); apply Z.eqb_eq; exact H2.
  Qed.

  Definition fold_records (rows : list (list str)) (m : list (Z * str)) : outcome (list (Z * str)) :=
    fold_left (fun acc elements => let* m := acc in stems_of_record hash m elements) rows (Ok m).
  Lemma fold_records_cons stem ws rows m :
    fold_records ((stem :: ws) :: rows) m =
    fold_records rows (fold_left (fun m value => hinsert Z.eqb (hash value) stem m) ws m).
  Proof. reflexivity. Qed.
  Lemma fold_records_ok rows : (forall r, In r rows -> r <> []) -> forall m, exists m', fold_records rows m = Ok m'.
  Proof.
    induction rows as [|[|s ws] rows IH]; intros H m; [exists m; reflexivity|exfalso; apply (H []); [left|]; reflexivity|].
    rewrite fold_records_cons. apply IH. intros r Hr. apply H. right. exact Hr.
  Qed.
  Lemma fold_records_app a b m m' : fold_records a m = Ok m' -> fold_records (a ++ b) m = fold_records b m'.
  Proof. unfold fold_records. intros H. rewrite fold_left_app, H. reflexivity. Qed.
  Lemma fold_records_keep rows h : (forall r, In r rows -> r <> [] /\ ~ row_lists hash r h) ->
    forall m m', fold_records rows m = Ok m' -> hget Z.eqb h m' = hget Z.eqb h m.
  Proof.
    induction rows as [|[|s ws] rows IH]; intros H m m' E.
    - injection E as <-. reflexivity.
    - destruct (H [] (or_introl eq_refl)) as [H1 _]. congruence.
    - rewrite fold_records_cons in E. apply IH in E; [|intros r Hr; apply H; right; exact Hr]. rewrite E, words_get.
      destruct (H (s :: ws) (or_introl eq_refl)) as [_ Hn].
      rewrite <- lists_iff in Hn. cbn [skipn] in Hn. destruct (existsb _ ws); [congruence|reflexivity].
  Qed.
End Stems.

Lemma stem_total hash text : exists m, stemmer_from_reader hash text = Ok m.
Proof. apply (fold_records_ok hash). apply csv_records_ne. Qed.

Lemma stem_listed x text rows pre s ws post m w : is_table comma text rows -> rows = pre ++ (s :: ws) :: post ->
  row_lists (x_hash x) (s :: ws) (x_hash x (x_normalize x w)) ->
  (forall r, In r post -> ~ row_lists (x_hash x) r (x_hash x (x_normalize x w))) ->
  stemmer_from_reader (x_hash x) text = Ok m -> stem x m w = s.
Proof.
  intros Ht Hr Hl Hp Hm. apply table_iff in Ht.
  assert (Hne : forall r, In r rows -> r <> []) by (rewrite Ht; apply csv_records_ne).
  unfold stemmer_from_reader in Hm. rewrite <- Ht, Hr in Hm. change (fold_records (x_hash x) (pre ++ (s :: ws) :: post) [] = Ok m) in Hm.
  destruct (fold_records_ok (x_hash x) pre) with (m := @nil (Z * str)) as (m1 & Hm1).
  { intros r Hin. apply Hne. rewrite Hr. apply in_or_app. left. exact Hin. }
  rewrite (fold_records_app _ _ _ _ _ Hm1), fold_records_cons in Hm.
  unfold stem. erewrite fold_records_keep; [| |exact Hm].
  - rewrite words_get. apply lists_iff in Hl. cbn [skipn] in Hl. rewrite Hl. reflexivity.
  - intros r Hin. split; [apply Hne; rewrite Hr; apply in_or_app; right; right; exact Hin|apply Hp; exact Hin].
Qed.
Lemma stem_unlisted x text rows m w : is_table comma text rows ->
  (forall r, In r rows -> ~ row_lists (x_hash x) r (x_hash x (x_normalize x w))) ->
  stemmer_from_reader (x_hash x) text = Ok m -> stem x m w = w.
Proof.
  intros Ht Hr Hm. apply table_iff in Ht.
  assert (Hne : forall r, In r rows -> r <> []) by (rewrite Ht; apply csv_records_ne).
  unfold stemmer_from_reader in Hm. rewrite <- Ht in Hm. change (fold_records (x_hash x) rows [] = Ok m) in Hm.
  unfold stem. erewrite fold_records_keep; [| |exact Hm]; [reflexivity|].
  intros r Hin. split; [apply Hne; exact Hin|apply Hr; exact Hin].
Qed.

(** ** Lines *)
Lemma lines_from_spec s : forall current, ~ In newline current ->
  forall w, w <> [] -> (In w (lines_from current s) <->
    exists before after, current ++ s = before ++ w ++ after /\ ~ In newline w /\
      (before = [] \/ exists b, before = b ++ [newline]) /\
      (after = [] \/
       ((exists a, after = newline :: a) /\ ~ (exists w', w = w' ++ [carriage_return])) \/
       (exists a, after = carriage_return :: newline :: a))).
Proof.
  induction s as [|c s IH]; intros cur Hcur w Hw.
  - cbn [lines_from]. split.
    + intros H. assert (w = cur) as -> by (destruct cur; [destruct H|destruct H as [H|[]]; congruence]).
      exists [], []. cbn [app]. repeat split; [exact Hcur|left; reflexivity|left; reflexivity].
    + intros (bf & af & Heq & Hn & Hb & Ha). rewrite app_nil_r in Heq.
      assert (Hbf : bf = []).
      { destruct Hb as [Hb|(b & Hb)]; [exact Hb|]. exfalso. apply Hcur. rewrite Heq, Hb. apply in_or_app. left.
        apply in_or_app. right. left. reflexivity. }
      assert (Haf : af = []).
      { destruct Ha as [Ha|[((a & Ha) & _)|(a & Ha)]]; [exact Ha| |]; exfalso; apply Hcur; rewrite Heq, Ha; apply in_or_app; right; apply in_or_app; right.
        - left; reflexivity.
        - right; left; reflexivity. }
      subst. cbn [app] in Hcur |- *. rewrite app_nil_r. destruct w; [congruence|left; reflexivity].
  - cbn [lines_from]. destruct (N.eqb_spec c newline) as [->|Hc].
    + cbn [In]. rewrite (IH [] (fun H => H) w Hw). cbn [app]. split.
      * intros [H|(bf & af & Heq & Hn & Hb & Ha)].
        -- destruct (strip_cr_cases cur) as [(s' & H1 & H2)|(H1 & H2)].
           ++ exists [], (carriage_return :: newline :: s). rewrite H2 in H. subst s'. rewrite H1. cbn [app]. rewrite <- app_assoc.
              repeat split.
              ** intros Hin. apply Hcur. rewrite H1. apply in_or_app. left. exact Hin.
              ** left; reflexivity.
              ** right. right. exists s. reflexivity.
           ++ exists [], (newline :: s). rewrite H2 in H. subst w. cbn [app]. repeat split; [exact Hcur|left; reflexivity|].
              right. left. split; [exists s; reflexivity|exact H1].
        -- exists (cur ++ newline :: bf), af. rewrite Heq, <- app_assoc. cbn [app]. repeat split; [exact Hn| |exact Ha].
           right. destruct Hb as [->|(b & ->)]; [exists cur; reflexivity|]. exists (cur ++ newline :: b). rewrite <- app_assoc. reflexivity.
      * intros (bf & af & Heq & Hn & Hb & Ha). destruct Hb as [->|(b & ->)].
        -- left. cbn [app] in Heq.
           assert (Hcases : cur = w /\ af = newline :: s \/ exists k, cur = w ++ k /\ k <> [] /\ af = k ++ newline :: s).
           { apply app_eq_app in Heq. destruct Heq as (l & [(H1 & H2)|(H1 & H2)]).
             - destruct l as [|d l]; [left|right].
               + rewrite app_nil_r in H1. split; [exact H1|exact H2].
               + exists (d :: l). repeat split; [exact H1|discriminate|exact H2].
             - destruct l as [|d l]; [left|].
               + rewrite app_nil_r in H1. split; [symmetry; exact H1|]. symmetry; exact H2.
               + exfalso. injection H2 as Hd _. apply Hn. rewrite H1, Hd. apply in_or_app. right. left. reflexivity. }
           destruct Hcases as [(-> & ->)|(k & Hk & Hkn & ->)].
           ++ destruct Ha as [Ha|[(_ & Ha)|(a & Ha)]]; [discriminate| |discriminate].
              destruct (strip_cr_cases w) as [(s' & H1 & _)|(_ & H2)]; [exfalso; apply Ha; exists s'; exact H1|exact H2].
           ++ destruct k as [|k0 k]; [congruence|]. destruct Ha as [Ha|[((a & Ha) & _)|(a & Ha)]]; [discriminate| |].
              ** injection Ha as Ha _. exfalso. apply Hcur. rewrite Hk, Ha. apply in_or_app. right. left. reflexivity.
              ** cbn [app] in Ha. injection Ha as Hk0 Ha. destruct k as [|k1 k].
                 --- destruct (strip_cr_cases cur) as [(s' & H1 & H2)|(H1 & _)].
                     +++ rewrite Hk, Hk0 in H1. apply app_inj_tail in H1. destruct H1 as [-> _]. exact H2.
                     +++ exfalso. apply H1. exists w. rewrite Hk, Hk0. reflexivity.
                 --- cbn [app] in Ha. injection Ha as Hk1 _. exfalso. apply Hcur. rewrite Hk, Hk1. apply in_or_app. right. right. left. reflexivity.
        -- right. rewrite <- app_assoc in Heq. cbn [app] in Heq.
           assert (Hp : exists b', b ++ [newline] = cur ++ newline :: b' /\ s = b' ++ w ++ af).
           { apply app_eq_app in Heq. destruct Heq as (l & [(H1 & H2)|(H1 & H2)]).
             - destruct l as [|d l].
               + rewrite app_nil_r in H1. injection H2 as H2. exists []. rewrite H1. split; [reflexivity|symmetry; exact H2].
               + exfalso. injection H2 as Hd _. apply Hcur. rewrite H1, <- Hd. apply in_or_app. right. left. reflexivity.
             - destruct l as [|d l].
               + rewrite app_nil_r in H1. injection H2 as H2. exists []. rewrite H1. split; [reflexivity|exact H2].
               + injection H2 as Hd H2. exists (l ++ [newline]). rewrite H1, <- Hd, <- !app_assoc. split; [reflexivity|exact H2]. }
           destruct Hp as (b' & Hb' & Hs). exists b', af. repeat split; [exact Hs|exact Hn| |exact Ha].
           destruct b' as [|b0 b'] using rev_ind; [left; reflexivity|]. right. exists b'.
           rewrite app_comm_cons, app_assoc in Hb'. apply app_inj_tail in Hb'. destruct Hb' as [_ ->]. reflexivity.
    + rewrite IH; [|intros H; apply in_app_or in H; destruct H as [H|[H|[]]]; [exact (Hcur H)|congruence]|exact Hw].
      rewrite <- app_assoc. reflexivity.
Qed.

Lemma lines_iff text w : w <> [] -> (In w (lines text) <-> is_line text w).
Proof.
  intros Hw. unfold lines. rewrite (lines_from_spec text [] (fun H => H) w Hw). cbn [app]. unfold is_line.
  split; intros (b & a & H1 & H2 & H3 & H4); exists b, a; (split; [exact H1|]); (split; [exact H2|]); (split; [exact H3|]).
  - destruct H4 as [H4|H4]; [left; split; [exact H4|exact Hw]|right; exact H4].
  - destruct H4 as [[H4 _]|H4]; [left; exact H4|right; exact H4].
Qed.

Lemma gazetteer_In hash text h : In h (gazetteer_from_reader hash text) <-> exists l, In l (lines text) /\ l <> [] /\ hash l = h.
Proof.
  unfold gazetteer_from_reader.
  assert (G : forall ls acc, In h (fold_left (fun s word => match word with
        | [] => s | _ => if memb Z.eqb (hash word) s then s else s ++ [hash word] end) ls acc) <->
        In h acc \/ exists l, In l ls /\ l <> [] /\ hash l = h).
  { induction ls as [|l ls IH]; intros acc; cbn [fold_left].
    - split; [intros H; left; exact H|]. intros [H|(l & [] & _)]. exact H.
    - rewrite IH. destruct l as [|c l].
      + split; (intros [H|(w & H1 & H2)]; [left; exact H|right; exists w]).
        * split; [right; exact H1|exact H2].
        * split; [|exact H2]. destruct H1 as [H1|H1]; [exfalso; apply (proj1 H2); symmetry; exact H1|exact H1].
      + destruct (memb Z.eqb (hash (c :: l)) acc) eqn:E.
        * apply (memb_spec Z.eqb Z.eqb_eq) in E. split; (intros [H|(w & H1 & H2 & H3)]).
          -- left; exact H.
          -- right. exists w. repeat split; [right; exact H1|exact H2|exact H3].
          -- left; exact H.
          -- destruct H1 as [H1|H1]; [left; rewrite <- H3, <- H1; exact E|right; exists w; repeat split; assumption].
        * rewrite in_app_iff. split.
          -- intros [[H|[H|[]]]|(w & H1 & H2 & H3)]; [left; exact H| |].
             ++ right. exists (c :: l). repeat split; [left; reflexivity|discriminate|exact H].
             ++ right. exists w. repeat split; [right; exact H1|exact H2|exact H3].
          -- intros [H|(w & H1 & H2 & H3)]; [left; left; exact H|]. destruct H1 as [H1|H1].
             ++ left. right. left. rewrite H1. exact H3.
             ++ right. exists w. repeat split; assumption. }
  rewrite G. split; [intros [[]|H]; exact H|intros H; right; exact H].
Qed.

Lemma gazetteer_iff hash text w : gazetteer_contains hash (gazetteer_from_reader hash text) w = true <->
  exists l, is_line text l /\ l <> [] /\ hash l = hash w.
Proof.
  unfold gazetteer_contains. rewrite (memb_spec Z.eqb Z.eqb_eq), gazetteer_In.
  split; intros (l & H1 & H2 & H3); exists l; (split; [apply (lines_iff text l H2); exact H1|split; assumption]).
Qed.

Lemma stop_words_iff text w : In w (stop_words_from_reader text) <-> is_line text w /\ w <> [].
Proof.
  unfold stop_words_from_reader.
  assert (G : forall ls acc, In w (fold_left (fun s word => match word with
        | [] => s | _ => if smem word s then s else s ++ [word] end) ls acc) <->
        In w acc \/ (In w ls /\ w <> [])).
  { induction ls as [|l ls IH]; intros acc; cbn [fold_left].
    - cbn [In]. tauto.
    - rewrite IH. cbn [In]. destruct l as [|c l].
      + split; [tauto|]. intros [H|[[H|H] H']]; [tauto|congruence|tauto].
      + destruct (smem (c :: l) acc) eqn:E.
        * apply smem_spec in E. split; [tauto|]. intros [H|[[<-|H] H']]; tauto.
        * rewrite in_app_iff. cbn [In]. split; [|tauto]. intros [[H|[<-|[]]]|H]; [tauto| |tauto].
          right. split; [left; reflexivity|discriminate]. }
  rewrite G. cbn [In]. split.
  - intros [[]|[H1 H2]]. split; [apply lines_iff; assumption|exact H2].
  - intros [H1 H2]. right. split; [apply lines_iff; assumption|exact H2].
Qed.
Lemma stop_words_NoDup text : NoDup (stop_words_from_reader text).
Proof.
  unfold stop_words_from_reader. assert (G : forall ls acc, NoDup acc -> NoDup (fold_left (fun s word => match word with
        | [] => s | _ => if smem word s then s else s ++ [word] end) ls acc)).
  { induction ls as [|[|c l] ls IH]; intros acc H; cbn [fold_left]; [exact H|apply IH; exact H|]. apply IH.
    destruct (smem (c :: l) acc) eqn:E; [exact H|]. apply smem_false in E.
    apply (Permutation.Permutation_NoDup (Permutation.Permutation_cons_append acc (c :: l))). constructor; assumption. }
  apply G. constructor.
Qed.
