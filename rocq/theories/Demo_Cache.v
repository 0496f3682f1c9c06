(** Small parsers and histories, for the examples. Not part of the model of the
    repository. *)
From Coq Require Import String List NArith ZArith Bool Arith Lia.
From Verif Require Import Base F32 M_Types M_Cache S_Base S_Utils S_Det S_Cache P_Base P_Cache P_Custom Demo P_Demo.
Import ListNotations.
Local Open Scope nat_scope.

Definition demo_lower : str -> str := map demo_lower_char.
(** A parser that answers the length of the text, fails on "err" and panics on "boom". *)
Definition demo_raw (s : str) (_ : option (list str)) (n : nat) : outcome nat :=
  if str_eqb s $"err" then Err EOther else if str_eqb s $"boom" then Panic else Ok (length s + n).
Definition rq (s : string) : Request := mkRq (str_of_string s) None true 0.
Definition uncached (s : string) : Request := mkRq (str_of_string s) None false 0.

Definition demo_history : list Request := [rq "a"; rq "bb"; rq "err"; rq "A"; rq "ccc"; uncached "dddd"].

Lemma demo_no_panic : no_cached_panic demo_lower demo_raw demo_history.
Proof.
  intros r Hr _. cbn [demo_history In] in Hr. destruct Hr as [<-|[<-|[<-|[<-|[<-|[<-|[]]]]]]]; vm_compute; discriminate.
Qed.

Lemma demo_recent : recently_used 2 (used_keys demo_lower demo_raw demo_history) (key_of_request demo_lower (rq "a")) /\
  ~ recently_used 2 (used_keys demo_lower demo_raw demo_history) (key_of_request demo_lower (rq "bb")).
Proof.
  destruct (cache_contents demo_lower demo_raw 2 demo_history demo_no_panic) as (_ & _ & H & _).
  split; [apply H; vm_compute; tauto|]. rewrite <- H. vm_compute. intros [H'|[H'|[]]]; discriminate.
Qed.

(** Two threads. *)
Definition two_programs : list (list Request) := [[rq "a"; rq "bb"]; [rq "A"; uncached "x"]].
Definition interleaved : list nat := [0; 1; 0; 1; 0; 0; 0; 1; 1; 1; 0; 1; 0; 0; 0; 0].

(** Lower-casing as in Rust for the letters used here: U+0130 becomes 'i' and U+0307, a
    capital sigma at the end of a word becomes a final sigma. *)
Definition turkish_lower_char (c : char) : str :=
  if (c =? 304)%N then [105; 775]%N else if (c =? 931)%N then [963]%N else [demo_lower_char c].
Fixpoint turkish_lower (s : str) : str :=
  match s with
  | [] => []
  | c :: r => (if ((c =? 931)%N && match r with [] => true | d :: _ => (d =? 32)%N end)%bool
               then [962%N] else turkish_lower_char c) ++ turkish_lower r
  end.
Definition turkish_ext : Ext :=
  mkExt (fun _ => demo_tokenize) (fun _ s => map tk_value (demo_tokenize s))
        (map demo_lower_char) turkish_lower (map demo_upper_char) demo_hash demo_kind demo_kind.
Definition demo_gaz : str -> option (list str) -> nat -> outcome (list CustomEntity) := demo_custom demo_voc.

Lemma turkish_lowercasing : lowercasing (x_lower turkish_ext) turkish_lower_char.
Proof.
  intros s. change (x_lower turkish_ext) with turkish_lower. induction s as [|c s (pieces & IH & E)].
  - exists []. split; [constructor|reflexivity].
  - eexists (_ :: pieces). split; [|cbn [turkish_lower concat]; rewrite E; reflexivity].
    constructor; [|exact IH].
    destruct ((c =? 931)%N && match s with [] => true | d :: _ => (d =? 32)%N end)%bool eqn:B.
    + right. apply andb_prop in B. destruct B as [B _]. apply N.eqb_eq in B. split; [exact B|reflexivity].
    + left. reflexivity.
Qed.
Lemma turkish_charwise s : ~ In 304%N s -> charwise turkish_lower_char s.
Proof.
  intros H c Hc. unfold turkish_lower_char.
  destruct (N.eqb_spec c 304); [subst; contradiction|]. destruct (c =? 931)%N; reflexivity.
Qed.

Lemma threads_case :
  let s := run demo_lower demo_raw 2 (start two_programs) interleaved in
  map th_done (sy_threads s) = [[(rq "a", Ok 1); (rq "bb", Ok 2)]; [(rq "A", Ok 1); (uncached "x", Ok 1)]] /\
  map fst (sh_cache (sy_shared s)) = [mkKey $"bb" None 0; mkKey $"a" None 0] /\ work s = 0 /\
  in_critical_section (run demo_lower demo_raw 2 (start two_programs) [0; 1; 0]) 0 /\
  unfinished (run demo_lower demo_raw 2 (start two_programs) [0; 1; 0]) 1 /\
  step demo_lower demo_raw 2 (run demo_lower demo_raw 2 (start two_programs) [0; 1; 0]) 1 = None.
Proof.
  cbv zeta. split; [vm_compute; reflexivity|]. split; [vm_compute; reflexivity|]. split; [vm_compute; reflexivity|].
  split; [|split; [|vm_compute; reflexivity]].
  - eexists. split; [vm_compute; reflexivity|discriminate].
  - eexists. split; [vm_compute; reflexivity|]. split; [reflexivity|discriminate].
Qed.

Lemma moved_case :
  custom_extract demo_ext EN demo_gaz $"   the   kitchen and   bedroom" None 0 =
    Ok [mkCE $"kitchen" $"the kitchen" [] (9, 16) $"room"; mkCE $"bedroom" $"the bedroom" [] (23, 30) $"room"] /\
  joined_at (demo_tokenize $"   the   kitchen and   bedroom") 4 1 0 (mkTok $"kitchen" (9, 16) (9, 16)).
Proof.
  split; [vm_compute; reflexivity|]. split; [vm_compute; reflexivity|]. split; [cbn; lia|vm_compute; reflexivity].
Qed.

Lemma shifted :
  let text := ([304; 32]%N ++ $"kitchen now") in
  exists e, fst (extract (x_lower turkish_ext) (custom_extract turkish_ext EN demo_gaz) 10 fresh (mkRq text None true 0)) = Ok [e] /\
    ce_value e = $"kitchen" /\ ce_range e = (3, 10) /\
    substring text (ce_range e) = $"itchen " /\ substring text (2, 9) = $"kitchen".
Proof. eexists. split; [vm_compute; reflexivity|]. repeat split. Qed.

(** "ΣΑΣ the  KITCHEN" *)
Definition greek_text : str := [931; 913; 931]%N ++ $" the  KITCHEN".
Lemma unshifted : lowercasing (x_lower turkish_ext) turkish_lower_char /\ charwise turkish_lower_char greek_text /\
  x_lower turkish_ext greek_text = [963; 913; 962]%N ++ $" the  kitchen" /\
  fst (extract (x_lower turkish_ext) (custom_extract turkish_ext EN demo_gaz) 10 fresh (mkRq greek_text None true 0)) =
    Ok [mkCE $"kitchen" $"the kitchen" [] (9, 16) $"room"].
Proof.
  split; [exact turkish_lowercasing|]. split; [|split; vm_compute; reflexivity].
  apply turkish_charwise. vm_compute. intuition discriminate.
Qed.
