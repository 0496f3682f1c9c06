(** Properties of the entity parsers: C31, C32, C33, C34, C35, C36, C53.  [Print
    Assumptions] beneath each theorem lists what it rests on. *)
From Coq Require Import String List NArith ZArith Bool Arith Lia.
From Verif Require Import Base M_Types M_Cache S_Base S_Utils S_Det S_Cache P_Cache P_Threads P_Custom Demo P_Demo Demo_Cache.
Import ListNotations.
Local Open Scope nat_scope.

(** ** C31 *)
Theorem C31_cache_invisible : forall V lower (raw : str -> option (list str) -> nat -> outcome V) cap h,
  no_cached_panic lower raw h -> fst (calls lower raw cap fresh h) = map (answer lower raw) h.
Proof. exact @cache_invisible. Qed.
Print Assumptions C31_cache_invisible.

Theorem C31_error_not_stored : forall V lower (raw : str -> option (list str) -> nat -> outcome V) cap h r e,
  no_cached_panic lower raw h ->
  let sh := snd (calls lower raw cap fresh h) in
  fst (extract lower raw cap sh r) = Err e -> snd (extract lower raw cap sh r) = sh.
Proof. exact @error_not_stored. Qed.
Print Assumptions C31_error_not_stored.

Example C31_case :
  no_cached_panic demo_lower demo_raw demo_history /\
  fst (calls demo_lower demo_raw 2 fresh demo_history) = [Ok 1; Ok 2; Err EOther; Ok 1; Ok 3; Ok 4] /\
  map fst (sh_cache (snd (calls demo_lower demo_raw 2 fresh demo_history))) = [mkKey $"ccc" None 0; mkKey $"a" None 0].
Proof. exact (conj demo_no_panic (conj eq_refl eq_refl)). Qed.

(** ** C32 *)
Theorem C32_cache_contents : forall V lower (raw : str -> option (list str) -> nat -> outcome V) cap h,
  no_cached_panic lower raw h ->
  let c := sh_cache (snd (calls lower raw cap fresh h)) in
  length c <= cap /\ NoDup (map fst c) /\
  (forall k, In k (map fst c) <-> recently_used cap (used_keys lower raw h) k) /\
  (forall k v, In (k, v) c -> raw (ck_input k) (ck_kinds k) (ck_alts k) = Ok v).
Proof. exact @cache_contents. Qed.
Print Assumptions C32_cache_contents.

(** The parser [raw'] is not asked: whatever it would do, the answer is the one of [raw]. *)
Theorem C32_hit_does_not_call : forall V lower (raw raw' : str -> option (list str) -> nat -> outcome V) cap h r,
  no_cached_panic lower raw h -> rq_cached r = true ->
  recently_used cap (used_keys lower raw h) (key_of_request lower r) ->
  let sh := snd (calls lower raw cap fresh h) in
  extract lower raw' cap sh r = extract lower raw cap sh r /\ fst (extract lower raw' cap sh r) = answer lower raw r.
Proof. exact @hit_no_call. Qed.
Print Assumptions C32_hit_does_not_call.

(** The parser [raw'] is asked. *)
Theorem C32_miss_calls : forall V lower (raw raw' : str -> option (list str) -> nat -> outcome V) cap h r,
  no_cached_panic lower raw h -> rq_cached r = true ->
  ~ recently_used cap (used_keys lower raw h) (key_of_request lower r) ->
  fst (extract lower raw' cap (snd (calls lower raw cap fresh h)) r) = answer lower raw' r.
Proof. exact @miss_calls. Qed.
Print Assumptions C32_miss_calls.

Example C32_case :
  recently_used 2 (used_keys demo_lower demo_raw demo_history) (key_of_request demo_lower (rq "a")) /\
  ~ recently_used 2 (used_keys demo_lower demo_raw demo_history) (key_of_request demo_lower (rq "bb")).
Proof. exact demo_recent. Qed.

(** ** C33 *)
(** Every interleaving is explained by a sequential order of the calls. *)
Theorem C33_linearizable : forall V lower (raw : str -> option (list str) -> nat -> outcome V) cap programs schedule,
  exists h, explains lower raw cap programs h (run lower raw cap (start programs) schedule).
Proof. exact @threads_linear. Qed.
Print Assumptions C33_linearizable.

Theorem C33_answers : forall V lower (raw : str -> option (list str) -> nat -> outcome V) cap programs schedule,
  (forall p r, In p programs -> In r p -> answer lower raw r <> Panic) ->
  let s := run lower raw cap (start programs) schedule in
  (forall i t, nth_error (sy_threads s) i = Some t ->
     th_dead t = false /\ forall r a, In (r, a) (th_done t) -> a = answer lower raw r) /\
  (forall k v, In (k, v) (sh_cache (sy_shared s)) -> raw (ck_input k) (ck_kinds k) (ck_alts k) = Ok v) /\
  length (sh_cache (sy_shared s)) <= cap /\ NoDup (map fst (sh_cache (sy_shared s))) /\ sh_poisoned (sy_shared s) = false.
Proof. exact @threads_answers. Qed.
Print Assumptions C33_answers.

Theorem C33_mutual_exclusion : forall V lower (raw : str -> option (list str) -> nat -> outcome V) cap programs schedule i j,
  let s := run lower raw cap (start programs) schedule in
  in_critical_section s i -> in_critical_section s j -> i = j.
Proof. exact @mutual_exclusion. Qed.
Print Assumptions C33_mutual_exclusion.

(** A thread that has calls to make is never blocked for ever: some thread can run, and
    each step reduces the work that is left. *)
Theorem C33_no_deadlock : forall V lower (raw : str -> option (list str) -> nat -> outcome V) cap programs schedule i,
  let s := run lower raw cap (start programs) schedule in
  unfinished s i -> exists j s', step lower raw cap s j = Some s'.
Proof. exact @no_deadlock. Qed.
Print Assumptions C33_no_deadlock.

Theorem C33_steps_bounded : forall V lower (raw : str -> option (list str) -> nat -> outcome V) cap s i s',
  step lower raw cap s i = Some s' -> work s' < work s.
Proof. exact @step_work. Qed.
Print Assumptions C33_steps_bounded.

(** The second thread asks while the first one holds the lock, and then finds the answer
    in the cache. *)
Example C33_case :
  let s := run demo_lower demo_raw 2 (start two_programs) interleaved in
  map th_done (sy_threads s) = [[(rq "a", Ok 1); (rq "bb", Ok 2)]; [(rq "A", Ok 1); (uncached "x", Ok 1)]] /\
  map fst (sh_cache (sy_shared s)) = [mkKey $"bb" None 0; mkKey $"a" None 0] /\ work s = 0 /\
  in_critical_section (run demo_lower demo_raw 2 (start two_programs) [0; 1; 0]) 0 /\
  unfinished (run demo_lower demo_raw 2 (start two_programs) [0; 1; 0]) 1 /\
  step demo_lower demo_raw 2 (run demo_lower demo_raw 2 (start two_programs) [0; 1; 0]) 1 = None.
Proof. exact threads_case. Qed.

(** ** C34 *)
Theorem C34_panic_poisons : forall V lower (raw : str -> option (list str) -> nat -> outcome V) cap h r h',
  no_cached_panic lower raw h -> rq_cached r = true -> answer lower raw r = Panic ->
  fst (calls lower raw cap fresh (h ++ r :: h')) =
    map (answer lower raw) h ++ Panic :: map (fun r' => if rq_cached r' then Panic else answer lower raw r') h'.
Proof. exact @panic_poisons. Qed.
Print Assumptions C34_panic_poisons.

(** Nothing else poisons. *)
Theorem C34_only_a_panic_poisons : forall V lower (raw : str -> option (list str) -> nat -> outcome V) cap sh r,
  sh_poisoned (snd (extract lower raw cap sh r)) = true <->
  sh_poisoned sh = true \/ (rq_cached r = true /\ fst (extract lower raw cap sh r) = Panic).
Proof. exact @extract_poisoned. Qed.
Print Assumptions C34_only_a_panic_poisons.

Example C34_case :
  fst (calls demo_lower demo_raw 2 fresh (demo_history ++ rq "boom" :: [rq "a"; uncached "a"; rq "err"])) =
    [Ok 1; Ok 2; Err EOther; Ok 1; Ok 3; Ok 4; Panic; Panic; Ok 1; Panic].
Proof. reflexivity. Qed.

(** ** C53 *)
Theorem C53_case_ignored : forall V lower (raw : str -> option (list str) -> nat -> outcome V) cap h h',
  Forall2 (same_request lower) h h' -> forall sh, calls lower raw cap sh h = calls lower raw cap sh h'.
Proof. exact @case_ignored. Qed.
Print Assumptions C53_case_ignored.

Example C53_case :
  Forall2 (same_request demo_lower) [rq "Aa"; rq "bB"; uncached "C"] [rq "aA"; rq "bb"; uncached "c"].
Proof. repeat constructor. Qed.

(** ** C35 *)
Theorem C35_ranges_moved : forall x l gaz text kinds alts out,
  let toks := x_tokenize x l text in
  tokens_ok text toks -> (Z.of_nat (length text) < 2 ^ 29)%Z ->
  custom_extract x l gaz text kinds alts = Ok out ->
  exists es, gaz (join [space] (map tk_value toks)) kinds alts = Ok es /\ Forall2 (moved_entity toks) es out.
Proof. exact custom_moved. Qed.
Print Assumptions C35_ranges_moved.

Theorem C35_in_bounds : forall x l gaz text kinds alts es,
  let toks := x_tokenize x l text in
  let joined := join [space] (map tk_value toks) in
  tokens_ok text toks -> (Z.of_nat (length text) < 2 ^ 29)%Z ->
  gaz joined kinds alts = Ok es -> (forall e, In e es -> wf_range (length joined) (ce_range e)) ->
  exists out, custom_extract x l gaz text kinds alts = Ok out.
Proof. exact custom_total. Qed.
Print Assumptions C35_in_bounds.

(** A position of the joined text is a character of a token, or a blank. *)
Theorem C35_joined_character : forall toks p k o t, joined_at toks p k o t ->
  char_at (join [space] (map tk_value toks)) p = char_at (tk_value t) o.
Proof. exact joined_char. Qed.
Print Assumptions C35_joined_character.

Theorem C35_joined_positions : forall toks p, p < length (join [space] (map tk_value toks)) ->
  (exists k o t, joined_at toks p k o t) \/ char_at (join [space] (map tk_value toks)) p = Some space.
Proof. exact joined_cases. Qed.
Print Assumptions C35_joined_positions.

Example C35_case :
  custom_extract demo_ext EN demo_gaz $"   the   kitchen and   bedroom" None 0 =
    Ok [mkCE $"kitchen" $"the kitchen" [] (9, 16) $"room"; mkCE $"bedroom" $"the bedroom" [] (23, 30) $"room"] /\
  joined_at (demo_tokenize $"   the   kitchen and   bedroom") 4 1 0 (mkTok $"kitchen" (9, 16) (9, 16)).
Proof. exact moved_case. Qed.

(** ** C36 *)
Theorem C36_ranges_in_user_text : forall lower f text r, lowercasing lower f -> charwise f text ->
  lower_case_of f (substring text r) (substring (lower text) r) /\ length (lower text) = length text.
Proof. exact charwise_ranges. Qed.
Print Assumptions C36_ranges_in_user_text.

(** The caching custom entity parser, after any history. *)
Theorem C36_custom_parser : forall x f l gaz cap h r out,
  let lower := x_lower x in
  let raw := custom_extract x l gaz in
  let text := rq_text r in
  let toks := x_tokenize x l (lower text) in
  lowercasing lower f -> charwise f text -> tokens_ok (lower text) toks -> (Z.of_nat (length text) < 2 ^ 29)%Z ->
  no_cached_panic lower raw h ->
  fst (extract lower raw cap (snd (calls lower raw cap fresh h)) r) = Ok out ->
  exists es, gaz (join [space] (map tk_value toks)) (rq_kinds r) (rq_alts r) = Ok es /\
    Forall2 (moved_entity toks) es out /\
    forall e, In e out -> lower_case_of f (substring text (ce_range e)) (substring (lower text) (ce_range e)).
Proof. exact custom_cached. Qed.
Print Assumptions C36_custom_parser.

(** Finding: after a capital dotted I (U+0130), the reported range is shifted. *)
Theorem C36_shifted_refuted :
  let text := ([304; 32]%N ++ $"kitchen now") in
  exists e, fst (extract (x_lower turkish_ext) (custom_extract turkish_ext EN demo_gaz) 10 fresh (mkRq text None true 0)) = Ok [e] /\
    ce_value e = $"kitchen" /\ ce_range e = (3, 10) /\
    substring text (ce_range e) = $"itchen " /\ substring text (2, 9) = $"kitchen".
Proof. exact shifted. Qed.
Print Assumptions C36_shifted_refuted.

(** A text with a capital sigma that becomes a final sigma. *)
Example C36_case : lowercasing (x_lower turkish_ext) turkish_lower_char /\ charwise turkish_lower_char greek_text /\
  x_lower turkish_ext greek_text = [963; 913; 962]%N ++ $" the  kitchen" /\
  fst (extract (x_lower turkish_ext) (custom_extract turkish_ext EN demo_gaz) 10 fresh (mkRq greek_text None true 0)) =
    Ok [mkCE $"kitchen" $"the kitchen" [] (9, 16) $"room"].
Proof. exact unshifted. Qed.
