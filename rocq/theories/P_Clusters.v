(** Proofs for the word clusters. *)
From Coq Require Import String List NArith ZArith Bool Arith Lia.
From Coq Require DecimalString DecimalN DecimalPos DecimalFacts.
From Verif Require Import Base M_Types M_Res S_Res P_Base P_Res.
Import ListNotations.
Local Open Scope nat_scope.

(** ** Numerals *)
Lemma u16_iff s v : u16_from_str s = Some v <-> numeral s v.
Proof.
  assert (D : forall d : str, d <> [] -> (if forallb is_digit d && (decimal_value d <? 65536)%N then Some (decimal_value d) else None) = Some v <->
     (Forall (fun c => (48 <= c <= 57)%N) d /\ v = decimal_value d /\ (v < 65536)%N)).
  { intros d _. rewrite Forall_forall. assert (Hd : forallb is_digit d = true <-> forall c, In c d -> (48 <= c <= 57)%N).
    { rewrite forallb_forall. unfold is_digit. split; intros H c Hc; specialize (H c Hc).
      - apply andb_true_iff in H. rewrite !N.leb_le in H. exact H.
      - apply andb_true_iff. rewrite !N.leb_le. exact H. }
    destruct (forallb is_digit d && (decimal_value d <? 65536)%N) eqn:E.
    - apply andb_true_iff in E. rewrite Hd, N.ltb_lt in E. split.
      + intros H. injection H as <-. repeat split; try apply E; assumption.
      + intros (_ & -> & _). reflexivity.
    - split; [discriminate|]. intros (H1 & -> & H2). apply Hd in H1. apply N.ltb_lt in H2. rewrite H1, H2 in E. discriminate. }
  unfold u16_from_str, numeral. destruct s as [|c r].
  - split; [discriminate|]. intros (d & [H|H] & Hne & _); congruence.
  - cbv zeta. destruct (N.eqb_spec c 43) as [->|Hc].
    + destruct r as [|c' r].
      * split; [discriminate|]. intros (d & [H|H] & Hne & Hf & _).
        -- subst d. inversion_clear Hf. lia.
        -- injection H as H. congruence.
      * rewrite D by discriminate. split.
        -- intros (H1 & H2 & H3). exists (c' :: r). repeat split; [right; reflexivity|discriminate|assumption|assumption|assumption].
        -- intros (d & [H|H] & Hne & Hf & Hv & Hlt).
           ++ subst d. inversion_clear Hf. lia.
           ++ injection H as H. subst d. repeat split; assumption.
    + rewrite D by discriminate. split.
      * intros (H1 & H2 & H3). exists (c :: r). repeat split; [left; reflexivity|discriminate|assumption|assumption|assumption].
      * intros (d & [H|H] & Hne & Hf & Hv & Hlt); [subst d; repeat split; assumption|congruence].
Qed.
Lemma u16_none s : u16_from_str s = None <-> ~ is_numeral s.
Proof.
  unfold is_numeral. split.
  - intros H (v & Hv). apply u16_iff in Hv. congruence.
  - intros H. destruct (u16_from_str s) eqn:E; [|reflexivity]. exfalso. apply H. exists n. apply u16_iff. exact E.
Qed.

(** ** Printing *)
Fixpoint digits_uint (s : str) : Decimal.uint :=
  match s with
  | [] => Decimal.Nil
  | c :: r =>
      let d := digits_uint r in
      match (c - 48)%N with
      | 0%N => Decimal.D0 d | 1%N => Decimal.D1 d | 2%N => Decimal.D2 d | 3%N => Decimal.D3 d | 4%N => Decimal.D4 d
      | 5%N => Decimal.D5 d | 6%N => Decimal.D6 d | 7%N => Decimal.D7 d | 8%N => Decimal.D8 d | _ => Decimal.D9 d
      end
  end.
Lemma digit_cases c : (48 <= c <= 57)%N ->
  c = 48%N \/ c = 49%N \/ c = 50%N \/ c = 51%N \/ c = 52%N \/ c = 53%N \/ c = 54%N \/ c = 55%N \/ c = 56%N \/ c = 57%N.
Proof. lia. Qed.

Ltac digits H := apply digit_cases in H; destruct H as [->|[->|[->|[->|[->|[->|[->|[->|[->| ->]]]]]]]]].

Lemma digits_acc s : Forall (fun c => (48 <= c <= 57)%N) s -> forall acc,
  fold_left (fun n c => (n * 10 + (c - 48))%N) s (Npos acc) = Npos (Pos.of_uint_acc (digits_uint s) acc).
Proof.
  induction 1 as [|c s Hc Hs IH]; intros acc; [reflexivity|]. cbn [fold_left digits_uint].
  digits Hc; cbn -[Pos.mul Pos.add N.mul N.add fold_left]; rewrite <- IH; f_equal; lia.
Qed.
Lemma digits_value s : Forall (fun c => (48 <= c <= 57)%N) s -> decimal_value s = N.of_uint (digits_uint s).
Proof.
  unfold decimal_value. induction 1 as [|c s Hc Hs IH]; [reflexivity|]. cbn [fold_left digits_uint].
  digits Hc; cbn -[Pos.mul Pos.add fold_left]; try (rewrite (digits_acc s Hs); reflexivity). exact IH.
Qed.
Lemma digits_string s : Forall (fun c => (48 <= c <= 57)%N) s ->
  str_of_string (DecimalString.NilEmpty.string_of_uint (digits_uint s)) = s.
Proof.
  induction 1 as [|c s Hc Hs IH]; [reflexivity|]. cbn [digits_uint].
  digits Hc; cbn -[digits_uint]; rewrite IH; reflexivity.
Qed.

Lemma show_canonical s v : numeral s v -> canonical_numeral s -> show_N v = s.
Proof.
  intros (d & Hd & Hne & Hf & Hv & Hlt) (Hs & Hc).
  assert (d = s) as ->.
  { destruct Hd as [H|H]; [congruence|]. subst s. inversion_clear Hs. lia. }
  rewrite Hv. unfold show_N. rewrite digits_value by exact Hs. rewrite DecimalN.Unsigned.to_of.
  destruct Hc as [->|(c & r & -> & Hc0)]; [reflexivity|].
  inversion_clear Hs as [|? ? H1 H2].
  assert (Hu : Decimal.unorm (digits_uint (c :: r)) = digits_uint (c :: r)).
  { cbn [digits_uint]. digits H1; try reflexivity. congruence. }
  rewrite Hu. assert (Hz : DecimalString.NilZero.string_of_uint (digits_uint (c :: r)) = DecimalString.NilEmpty.string_of_uint (digits_uint (c :: r))).
  { cbn [digits_uint]. digits H1; reflexivity. }
  rewrite Hz. apply digits_string. constructor; assumption.
Qed.

(** ** The table *)
Section Clusters.
  Context (ord : HashOrder) (hash : str -> Z).

  (** The number or text stored by a row. *)
  Definition stored (seen : list (list str)) (row : list str) : str :=
    if forallb (fun r => match u16_from_str (row_cluster r) with Some _ => true | None => false end) (seen ++ [row])
    then match u16_from_str (row_cluster row) with Some v => show_N v | None => row_cluster row end
    else row_cluster row.

  Definition all_num (rows : list (list str)) : bool :=
    forallb (fun r => match u16_from_str (row_cluster r) with Some _ => true | None => false end) rows.

  (** What the table gives for hash [h] after some rows. *)
  Inductive last_row : list (list str) -> Z -> option str -> Prop :=
  | last_none : forall rows h, (forall r, In r rows -> hash (row_word r) <> h) -> last_row rows h None
  | last_some : forall pre row post h, hash (row_word row) = h ->
      (forall r, In r post -> hash (row_word r) <> h) -> last_row (pre ++ row :: post) h (Some (stored pre row)).

  Definition get (cl : Clusters) (h : Z) : option str :=
    match cl with
    | CNum m => option_map show_N (hget Z.eqb h m)
    | CStr m => hget Z.eqb h m
    end.

  Definition cl_inv (rows : list (list str)) (cl : Clusters) : Prop :=
    (match cl with CNum m => all_num rows = true /\ NoDup (hkeys m) | CStr _ => all_num rows = false end) /\
    forall h, last_row rows h (get cl h).

  Lemma last_row_new rows row h : hash (row_word row) = h -> last_row (rows ++ [row]) h (Some (stored rows row)).
  Proof. intros H. apply (last_some rows row [] h H). intros r []. Qed.
  Lemma last_row_old rows row h o : hash (row_word row) <> h -> last_row rows h o -> last_row (rows ++ [row]) h o.
  Proof.
    intros Hne H. destruct H as [rows h H|pre r0 post h Hh Hp].
    - apply last_none. intros r Hr. apply in_app_or in Hr. destruct Hr as [Hr|[<-|[]]]; [apply H; exact Hr|exact Hne].
    - rewrite <- app_assoc. cbn [app]. apply last_some; [exact Hh|].
      intros r Hr. apply in_app_or in Hr. destruct Hr as [Hr|[<-|[]]]; [apply Hp; exact Hr|exact Hne].
  Qed.

  Lemma all_num_app a b : all_num (a ++ b) = all_num a && all_num b.
  Proof. apply forallb_app. Qed.

  Lemma moved_get (m : list (Z * N)) h : NoDup (hkeys m) ->
    hget Z.eqb h (fold_left (fun s kv => hinsert Z.eqb (fst kv) (show_N (snd kv)) s) (reorder ord m) []) =
    option_map show_N (hget Z.eqb h m).
  Proof.
    intros ND.
    assert (E : fold_left (fun s kv => hinsert Z.eqb (fst kv) (show_N (snd kv)) s) (reorder ord m) [] =
                hcollect Z.eqb (map (fun kv => (fst kv, show_N (snd kv))) (reorder ord m))).
    { unfold hcollect. generalize (@nil (Z * str)). induction (reorder ord m) as [|kv l IH]; intros acc; [reflexivity|]. cbn. apply IH. }
    rewrite E, hcollect_NoDup_id; [|exact Z.eqb_eq|].
    - assert (G : forall l : list (Z * N), hget Z.eqb h (map (fun kv => (fst kv, show_N (snd kv))) l) = option_map show_N (hget Z.eqb h l)).
      { induction l as [|[k v] l IH]; [reflexivity|]. cbn. destruct (h =? k)%Z; [reflexivity|exact IH]. }
      rewrite G. f_equal. symmetry. apply hget_perm; [exact Z.eqb_eq|exact ND|apply reorder_perm].
    - unfold hkeys. rewrite map_map. cbn [fst]. apply (Permutation.Permutation_NoDup (Permutation.Permutation_map fst (reorder_perm ord m))). exact ND.
  Qed.

  Lemma record_step width rows cl row cl' : cl_inv rows cl -> clusters_of_record ord hash width cl row = Ok cl' ->
    cl_inv (rows ++ [row]) cl'.
  Proof.
    intros [Hk Hi] H. unfold clusters_of_record in H. destruct (negb (length row =? width)); [discriminate|].
    destruct row as [|w [|c rest]]; [discriminate H|discriminate H|]. cbn [index nth_error bind] in H.
    set (row := w :: c :: rest) in *. change w with (row_word row) in H. change c with (row_cluster row) in H.
    destruct cl as [m|m].
    - destruct Hk as [Hn ND]. destruct (u16_from_str (row_cluster row)) as [v|] eqn:E; injection H as <-.
      + split.
        * split; [rewrite all_num_app, Hn; cbn; change c with (row_cluster row); rewrite E; reflexivity|].
          apply hinsert_NoDup; [exact Z.eqb_eq|exact ND].
        * intros h. cbn [get]. destruct (Z.eq_dec (hash (row_word row)) h) as [Heq|Hne].
          -- rewrite <- Heq. rewrite hget_insert_eq by exact Z.eqb_eq. cbn [option_map].
             replace (show_N v) with (stored rows row); [apply last_row_new; reflexivity|].
             unfold stored. change (forallb _ (rows ++ [row])) with (all_num (rows ++ [row])). rewrite all_num_app, Hn.
             cbn [andb]. unfold all_num. cbn [forallb]. rewrite E. reflexivity.
          -- rewrite hget_insert_neq; [|exact Z.eqb_eq|congruence]. apply last_row_old; [exact Hne|apply Hi].
      + split; [rewrite all_num_app; unfold all_num at 2; cbn [forallb]; rewrite E, andb_false_r; reflexivity|].
        intros h. cbn [get]. destruct (Z.eq_dec (hash (row_word row)) h) as [Heq|Hne].
        * rewrite <- Heq. rewrite hget_insert_eq by exact Z.eqb_eq.
          cut (stored rows row = row_cluster row); [intros <-; apply last_row_new; reflexivity|].
          unfold stored. rewrite E. destruct (forallb _ _); reflexivity.
        * rewrite hget_insert_neq; [|exact Z.eqb_eq|congruence]. rewrite moved_get by exact ND. apply last_row_old; [exact Hne|apply Hi].
    - injection H as <-. split; [rewrite all_num_app, Hk; reflexivity|].
      intros h. cbn [get]. destruct (Z.eq_dec (hash (row_word row)) h) as [Heq|Hne].
      + rewrite <- Heq. rewrite hget_insert_eq by exact Z.eqb_eq.
        cut (stored rows row = row_cluster row); [intros <-; apply last_row_new; reflexivity|].
        unfold stored. change (forallb _ (rows ++ [row])) with (all_num (rows ++ [row])). rewrite all_num_app, Hk. reflexivity.
      + rewrite hget_insert_neq; [|exact Z.eqb_eq|congruence]. apply last_row_old; [exact Hne|apply Hi].
  Qed.

  Lemma records_fold width rest : forall rows cl cl', cl_inv rows cl ->
    fold_left (fun acc elements => let* cl := acc in clusters_of_record ord hash width cl elements) rest (Ok cl) = Ok cl' ->
    cl_inv (rows ++ rest) cl'.
  Proof.
    induction rest as [|row rest IH]; intros rows cl cl' Hi H; cbn [fold_left] in H.
    - injection H as <-. rewrite app_nil_r. exact Hi.
    - cbn [bind] in H. destruct (clusters_of_record ord hash width cl row) as [cl1|e|] eqn:E.
      + replace (rows ++ row :: rest) with ((rows ++ [row]) ++ rest) by (rewrite <- app_assoc; reflexivity).
        apply (IH _ _ _ (record_step _ _ _ _ _ Hi E) H).
      + exfalso. revert H. clear. induction rest as [|r rest IH]; [discriminate|exact IH].
      + exfalso. revert H. clear. induction rest as [|r rest IH]; [discriminate|exact IH].
  Qed.

  Lemma clusters_inv rows cl : clusters_of_records ord hash rows = Ok cl -> cl_inv rows cl.
  Proof.
    intros H. apply (records_fold _ rows [] (CNum []) cl) in H; [exact H|]. split; [split; [reflexivity|constructor]|].
    intros h. apply last_none. intros r [].
  Qed.

  Lemma stored_printed pre row : printed (pre ++ [row]) (row_cluster row) (stored pre row).
  Proof.
    unfold printed, stored. destruct (forallb _ (pre ++ [row])) eqn:E.
    - left. rewrite forallb_forall in E. assert (Ha : forall r, In r (pre ++ [row]) -> exists v, u16_from_str (row_cluster r) = Some v).
      { intros r Hr. specialize (E r Hr). destruct (u16_from_str (row_cluster r)) as [v|]; [exists v; reflexivity|discriminate]. }
      split.
      + apply Forall_forall. intros r Hr. destruct (Ha r Hr) as (v & Hv). exists v. apply u16_iff. exact Hv.
      + destruct (Ha row) as (v & Hv); [apply in_or_app; right; left; reflexivity|]. exists v. rewrite Hv. split; [apply u16_iff; exact Hv|reflexivity].
    - right. split; [|reflexivity]. apply Exists_exists.
      assert (G : forall l, forallb (fun r => match u16_from_str (row_cluster r) with Some _ => true | None => false end) l = false ->
                  exists x, In x l /\ ~ is_numeral (row_cluster x)).
      { induction l as [|r l IH]; [discriminate|]. cbn [forallb]. intros H. destruct (u16_from_str (row_cluster r)) eqn:Er.
        - destruct (IH H) as (y & Hy & Hn). exists y. split; [right; exact Hy|exact Hn].
        - exists r. split; [left; reflexivity|]. apply u16_none. exact Er. }
      apply G. exact E.
  Qed.
End Clusters.

Lemma cluster_listed ord hash text cl rows pre row post w : is_table tab text rows ->
  clusters_from_reader ord hash text = Ok cl -> rows = pre ++ row :: post ->
  hash (row_word row) = hash w -> (forall r, In r post -> hash (row_word r) <> hash w) ->
  exists shown, get_cluster hash cl w = Some shown /\ printed (pre ++ [row]) (row_cluster row) shown.
Proof.
  intros Ht Hc Hr Hh Hp. apply table_iff in Ht. unfold clusters_from_reader in Hc. rewrite <- Ht in Hc.
  destruct (clusters_inv _ _ _ _ Hc) as [_ Hi]. specialize (Hi (hash w)).
  change (get_cluster hash cl w) with (get cl (hash w)). exists (stored pre row). split; [|apply stored_printed].
  clear Hc Ht. subst rows. inversion Hi as [rs h H E1 E2 E3|pre' row' post' h H1 H2 E1 E2 E3].
  - exfalso. apply (H row); [apply in_or_app; right; left; reflexivity|exact Hh].
  - assert (Hsame : pre' = pre /\ row' = row).
    { clear - E1 H1 H2 Hh Hp. revert pre E1. induction pre' as [|r pre' IH]; intros [|r0 pre] E1; cbn [app] in E1.
      - injection E1 as -> _. split; reflexivity.
      - injection E1 as -> ->. exfalso. apply (H2 row); [apply in_or_app; right; left; reflexivity|exact Hh].
      - injection E1 as -> <-. exfalso. apply (Hp row'); [apply in_or_app; right; left; reflexivity|exact H1].
      - injection E1 as -> E1. destruct (IH pre E1) as [-> ->]. split; reflexivity. }
    destruct Hsame as [-> ->]. reflexivity.
Qed.
Lemma cluster_unlisted ord hash text cl rows w : is_table tab text rows ->
  clusters_from_reader ord hash text = Ok cl -> (forall r, In r rows -> hash (row_word r) <> hash w) ->
  get_cluster hash cl w = None.
Proof.
  intros Ht Hc Hr. apply table_iff in Ht. unfold clusters_from_reader in Hc. rewrite <- Ht in Hc.
  destruct (clusters_inv _ _ _ _ Hc) as [_ Hi]. specialize (Hi (hash w)).
  change (get_cluster hash cl w) with (get cl (hash w)). inversion Hi as [rs h H E1 E2 E3|pre' row' post' h H1 H2 E1 E2 E3]; [reflexivity|].
  exfalso. apply (Hr row'); [rewrite <- E1; apply in_or_app; right; left; reflexivity|exact H1].
Qed.

Lemma printed_as_is rows name shown : (is_numeral name -> canonical_numeral name) -> printed rows name shown -> shown = name.
Proof.
  intros Hc [(_ & v & Hv & ->)|(_ & ->)]; [|reflexivity]. apply show_canonical; [exact Hv|]. apply Hc. exists v. exact Hv.
Qed.

Lemma cluster_as_is ord hash text cl rows pre row post w : is_table tab text rows ->
  clusters_from_reader ord hash text = Ok cl -> rows = pre ++ row :: post ->
  hash (row_word row) = hash w -> (forall r, In r post -> hash (row_word r) <> hash w) ->
  (is_numeral (row_cluster row) -> canonical_numeral (row_cluster row)) ->
  get_cluster hash cl w = Some (row_cluster row).
Proof.
  intros H1 H2 H3 H4 H5 H6. destruct (cluster_listed _ _ _ _ _ _ _ _ _ H1 H2 H3 H4 H5) as (shown & E & Hp).
  rewrite E. f_equal. apply (printed_as_is _ _ _ H6 Hp).
Qed.

(** When the file loads. *)
Lemma clusters_loads ord hash text rows : is_table tab text rows ->
  match rows with
  | [] => clusters_from_reader ord hash text = Ok (CNum [])
  | first :: _ =>
      (length first = 1 /\ clusters_from_reader ord hash text = Panic) \/
      (length first <> 1 /\ (exists r, In r rows /\ length r <> length first) /\ clusters_from_reader ord hash text = Err EIo) \/
      (length first <> 1 /\ (forall r, In r rows -> length r = length first) /\ exists cl, clusters_from_reader ord hash text = Ok cl)
  end.
Proof.
  intros Ht. pose proof (csv_records_ne tab text) as Hne. apply table_iff in Ht. unfold clusters_from_reader. rewrite <- Ht in *. clear Ht text.
  destruct rows as [|first rest]; [reflexivity|]. unfold clusters_of_records.
  set (width := length first).
  assert (Herr : forall l, fold_left (fun acc elements => let* cl := acc in clusters_of_record ord hash width cl elements) l (Err EIo) = Err EIo)
    by (induction l as [|r l IH]; [reflexivity|exact IH]).
  assert (Hpan : forall l, fold_left (fun acc elements => let* cl := acc in clusters_of_record ord hash width cl elements) l Panic = Panic)
    by (induction l as [|r l IH]; [reflexivity|exact IH]).
  destruct (Nat.eq_dec width 1) as [E1|E1].
  - left. split; [exact E1|]. cbn [fold_left bind]. unfold clusters_of_record at 2. change (length first) with width. rewrite Nat.eqb_refl. cbn [negb].
    subst width. destruct first as [|a [|b f]]; [discriminate|cbn; apply Hpan|discriminate].
  - right.
    assert (Hstep : forall cl r, length r = width -> exists cl', clusters_of_record ord hash width cl r = Ok cl').
    { intros cl r Hr. unfold clusters_of_record. rewrite Hr, Nat.eqb_refl. cbn [negb].
      destruct r as [|a [|b r]].
      - exfalso. assert (Hf : first <> []) by (apply Hne; left; reflexivity). subst width. destruct first; [congruence|discriminate].
      - cbn in Hr. congruence.
      - cbn [index nth_error bind]. destruct cl; eexists; reflexivity. }
    assert (Hgen : forall l cl, ((exists r, In r l /\ length r <> width) /\
        fold_left (fun acc elements => let* cl := acc in clusters_of_record ord hash width cl elements) l (Ok cl) = Err EIo) \/
        ((forall r, In r l -> length r = width) /\
         exists cl', fold_left (fun acc elements => let* cl := acc in clusters_of_record ord hash width cl elements) l (Ok cl) = Ok cl')).
    { induction l as [|r l IH]; intros cl.
      - right. split; [intros r []|]. exists cl. reflexivity.
      - cbn [fold_left bind]. destruct (Nat.eq_dec (length r) width) as [Er|Er].
        + destruct (Hstep cl r Er) as (cl' & ->). destruct (IH cl') as [((r' & Hr' & Hl) & H)|(Hall & H)].
          * left. split; [exists r'; split; [right; exact Hr'|exact Hl]|exact H].
          * right. split; [intros r' [<-|Hr']; [exact Er|apply Hall; exact Hr']|exact H].
        + left. split; [exists r; split; [left; reflexivity|exact Er]|]. unfold clusters_of_record at 2.
          apply Nat.eqb_neq in Er. rewrite Er. apply Herr. }
    destruct (Hgen (first :: rest) (CNum [])) as [(H1 & H2)|(H1 & H2)]; [left|right]; (split; [exact E1|]); split; assumption.
Qed.
