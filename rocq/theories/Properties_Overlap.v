(** Properties of loadings and injections made at the same time: C92.
    [Print Assumptions] beneath each theorem lists what it rests on. *)
From Coq Require Import String List NArith ZArith Bool Arith Permutation.
From Verif Require Import Base F32 M_Types M_Engine M_Features M_Filler M_Prob M_Res M_Fs M_Json M_Load
  M_Inject M_Overlap S_Base S_Engine S_Load S_Inject S_Answer S_Reload S_Injections S_Overlap
  P_Base P_Overlap Demo Demo_Prob Demo_Crf Demo_Load Demo_Home Demo_Inject Demo_Reload Demo_Injections Demo_Overlap.
Import ListNotations.
Local Open Scope string_scope.
Local Open Scope list_scope.
Local Open Scope nat_scope.

(** ** C92 *)
(** Whatever calls are made, and however they take turns, at any time a file outside the
    directories of the parsers of the requested entities is the one of before. *)
Theorem C92_elsewhere : forall x shape ngrams mx L fo uo G p m f calls,
  gaz_ok G -> metadata L fo f p m -> tidy p m ->
  forall sched q,
  (forall i rq e d, injects calls i rq -> requested (rq_adds rq) e -> stored G p m e d -> ~ at_or_below (resolve d) q) ->
  fst (run x shape ngrams mx L fo uo G (begun G p f calls) sched) q = f q.
Proof. exact overlap_elsewhere. Qed.
Print Assumptions C92_elsewhere.

(** In particular the parser of every other entity is loaded as before. *)
Theorem C92_others : forall x shape ngrams mx L fo uo G p m f calls,
  gaz_ok G -> metadata L fo f p m -> tidy p m ->
  forall sched d,
  (forall i rq e d', injects calls i rq -> requested (rq_adds rq) e -> stored G p m e d' -> apart (resolve d') (resolve d)) ->
  gz_load G (fst (run x shape ngrams mx L fo uo G (begun G p f calls) sched)) d = gz_load G f d.
Proof. exact overlap_others. Qed.
Print Assumptions C92_others.

(** Injections for distinct entities do not disturb each other.  Once one of them has returned
    without error, each of its entities has exactly its new values, whatever the other calls have
    done and are doing. *)
Theorem C92_injected : forall x shape ngrams mx L fo uo G p m f calls,
  gaz_ok G -> metadata L fo f p m -> tidy p m -> distinct calls ->
  forall en, from_path x shape ngrams mx L fo uo f p = Ok en -> names_stay L f p m ->
  forall sched i rq, injects calls i rq ->
  stage_at G (run x shape ngrams mx L fo uo G (begun G p f calls) sched) i (Injected G (Ok tt)) ->
  forall e, requested (rq_adds rq) e ->
  exists d, stored G p m e d /\
    updated G x m (stemmer_of en (given_to rq e)) (rq_vanilla rq) (rq_adds rq) f
      (fst (run x shape ngrams mx L fo uo G (begun G p f calls) sched)) e d.
Proof. exact overlap_injected. Qed.
Print Assumptions C92_injected.

(** At any time, for each of these injections, each of its entities but at most one, the one it is
    busy with, is either as before or has its new values. *)
Theorem C92_anytime : forall x shape ngrams mx L fo uo G p m f calls,
  gaz_ok G -> metadata L fo f p m -> tidy p m -> distinct calls ->
  forall en, from_path x shape ngrams mx L fo uo f p = Ok en -> names_stay L f p m ->
  forall sched i rq, injects calls i rq ->
  exists busy : option str, forall e d, requested (rq_adds rq) e -> stored G p m e d -> Some e <> busy ->
    same_below (resolve d) f (fst (run x shape ngrams mx L fo uo G (begun G p f calls) sched)) \/
    updated G x m (stemmer_of en (given_to rq e)) (rq_vanilla rq) (rq_adds rq) f
      (fst (run x shape ngrams mx L fo uo G (begun G p f calls) sched)) e d.
Proof. exact overlap_anytime. Qed.
Print Assumptions C92_anytime.

(** Once they have all succeeded, the engine loaded from the tree is the one loaded after the same
    requests made one after the other, in any order in which they succeed. *)
Theorem C92_serial : forall x shape ngrams mx L fo uo G p m f calls,
  gaz_ok G -> metadata L fo f p m -> tidy p m -> distinct calls ->
  forall en, from_path x shape ngrams mx L fo uo f p = Ok en -> names_stay L f p m ->
  forall make mkb sched l f', assembled L G make mkb -> taggers_local L ->
  (forall i rq, injects calls i rq ->
    stage_at G (run x shape ngrams mx L fo uo G (begun G p f calls) sched) i (Injected G (Ok tt))) ->
  happened x L fo uo G p f l f' -> all_done l -> Permutation (map fst l) (requests calls) ->
  exists en', from_path x shape ngrams mx L fo uo f' p = Ok en' /\
    from_path x shape ngrams mx L fo uo (fst (run x shape ngrams mx L fo uo G (begun G p f calls) sched)) p = Ok en'.
Proof. exact overlap_serial. Qed.
Print Assumptions C92_serial.

(** An injection that is given its resources, whose entities have parsers, and for which the
    parser library neither refuses values nor fails to remove or write, succeeds among any calls
    that inject into other entities. *)
Theorem C92_unhindered : forall x shape ngrams mx L fo uo G p m f calls,
  gaz_ok G -> metadata L fo f p m -> tidy p m -> distinct calls ->
  forall en, from_path x shape ngrams mx L fo uo f p = Ok en -> names_stay L f p m ->
  forall i rq, injects calls i rq ->
  forall res, rq_resources rq = Some res ->
  cu_usage (me_custom m) = WithoutStems \/ (exists st, rs_stemmer res = Some st) ->
  (forall e, requested (rq_adds rq) e -> exists d g, stored G p m e d /\ gz_load G f d = Ok g) ->
  (forall g vs, exists g', gz_inject G g vs true (rq_vanilla rq) = Ok g') ->
  (forall f d, snd (gz_remove G f d) = Ok tt) -> (forall f d g, snd (gz_dump G f d g) = Ok tt) ->
  forall sched r,
  stage_at G (run x shape ngrams mx L fo uo G (begun G p f calls) sched) i (Injected G r) -> r = Ok tt.
Proof. exact overlap_unhindered. Qed.
Print Assumptions C92_unhindered.

(** A loading made among other calls returns what a loading returns whose intent parsers and other
    files are those of before, and whose entity parsers are read from some tree [v] in which each
    file is as it was at some time; the parsers of the entities to which nothing is injected are
    those of before. *)
Theorem C92_load : forall x shape ngrams mx L fo uo G p m f calls,
  gaz_ok G -> metadata L fo f p m -> tidy p m ->
  forall sched i r, taggers_local L -> names_stay L f p m -> nth_error calls i = Some Loads ->
  stage_at G (run x shape ngrams mx L fo uo G (begun G p f calls) sched) i (Loaded G r) ->
  exists v : fs,
    (forall q, exists s1 s2, sched = s1 ++ s2 /\
       v q = fst (run x shape ngrams mx L fo uo G (begun G p f calls) s1) q) /\
    (forall d, (forall i rq e d', injects calls i rq -> requested (rq_adds rq) e -> stored G p m e d' ->
       apart (resolve d') (resolve d)) -> gz_load G v d = gz_load G f d) /\
    r = from_path x shape ngrams mx (entities_from L v) fo uo f p.
Proof. exact overlap_loaded. Qed.
Print Assumptions C92_load.

(** A call that is let act often enough returns, whatever the others have done: no call waits for
    another. *)
Theorem C92_never_blocks : forall x shape ngrams mx L fo uo G (w : world G) i t s,
  nth_error (snd w) i = Some (t, s) ->
  exists n s', stage_at G (run x shape ngrams mx L fo uo G w (repeat (i, Go) n)) i s' /\ ended G s'.
Proof. exact never_blocks. Qed.
Print Assumptions C92_never_blocks.

(** An injection made alone, step by step, does what the injection of C46 to C49 does. *)
Theorem C92_alone : forall x shape ngrams mx L fo uo G p f o1 o2 o3 rq tr r,
  inject x L fo uo G o1 o2 o3 (request p (rq_adds rq) (rq_vanilla rq) (rq_resources rq)) f = (tr, r) ->
  exists n, run x shape ngrams mx L fo uo G (begun G p f [Injects o1 o2 o3 rq]) (repeat (0, Go) n) =
    (apply_ops f tr, [(task_of p (Injects o1 o2 o3 rq), Injected G r)]).
Proof. exact alone. Qed.
Print Assumptions C92_alone.

(** The code takes no lock.  Two injections for the same entity that both succeed when made alone
    can both return without error and yet leave the parser of the entity exactly as the second
    alone does: the values of the first are lost. *)
Theorem C92_both_kept_refuted : forall x shape ngrams mx L fo uo G p m f a1 a2 a3 ra ta b1 b2 b3 rb tb e d,
  gaz_ok G -> metadata L fo f p m -> tidy p m ->
  (forall f d, snd (gz_remove G f d) = Ok tt) -> (forall f d g, snd (gz_dump G f d g) = Ok tt) ->
  inject x L fo uo G a1 a2 a3 (request p (rq_adds ra) (rq_vanilla ra) (rq_resources ra)) f = (ta, Ok tt) ->
  inject x L fo uo G b1 b2 b3 (request p (rq_adds rb) (rq_vanilla rb) (rq_resources rb)) f = (tb, Ok tt) ->
  (forall e', requested (rq_adds rb) e' <-> e' = e) -> stored G p m e d ->
  exists sched f',
    run x shape ngrams mx L fo uo G (begun G p f [Injects a1 a2 a3 ra; Injects b1 b2 b3 rb]) sched =
      (f', [(task_of p (Injects a1 a2 a3 ra), Injected G (Ok tt)); (task_of p (Injects b1 b2 b3 rb), Injected G (Ok tt))]) /\
    gz_load G f' d = gz_load G (apply_ops f tb) d.
Proof. exact lost. Qed.
Print Assumptions C92_both_kept_refuted.

(** A loading made during a successful injection of a custom entity may fail, and so may an
    injection that is given no resources, even for another entity. *)
Theorem C92_load_unhindered_refuted : forall x shape ngrams mx L fo uo G p m f o1 o2 o3 rq tr e d,
  gaz_ok G -> gazetteer_needed L -> metadata L fo f p m -> tidy p m ->
  inject x L fo uo G o1 o2 o3 (request p (rq_adds rq) (rq_vanilla rq) (rq_resources rq)) f = (tr, Ok tt) ->
  requested (rq_adds rq) e -> is_custom m e -> stored G p m e d ->
  exists sched r,
    stage_at G (run x shape ngrams mx L fo uo G (begun G p f [Injects o1 o2 o3 rq; Loads]) sched) 1 (Loaded G r) /\
    forall en, r <> Ok en.
Proof. exact load_hindered. Qed.
Print Assumptions C92_load_unhindered_refuted.

Theorem C92_injection_unhindered_refuted : forall x shape ngrams mx L fo uo G p m f o1 o2 o3 rq tr e d q1 q2 q3 rq',
  gaz_ok G -> gazetteer_needed L -> metadata L fo f p m -> tidy p m ->
  inject x L fo uo G o1 o2 o3 (request p (rq_adds rq) (rq_vanilla rq) (rq_resources rq)) f = (tr, Ok tt) ->
  requested (rq_adds rq) e -> is_custom m e -> stored G p m e d -> rq_resources rq' = None ->
  exists sched r,
    stage_at G (run x shape ngrams mx L fo uo G (begun G p f [Injects o1 o2 o3 rq; Injects q1 q2 q3 rq']) sched) 1 (Injected G r) /\
    r <> Ok tt.
Proof. exact injection_hindered. Qed.
Print Assumptions C92_injection_unhindered_refuted.

(** Two injections and a loading at the same time.  The loading, which reads one parser before and
    the other after, returns an engine that knows the new color and not the new room. *)
Example C92_case :
  gaz_ok demo_gaz /\ assembled re_loader demo_gaz re_custom (fun _ => Some re_builtin) /\ taggers_local re_loader /\
  gazetteer_needed re_loader /\ metadata re_loader orders0 re_tree dir_e re_meta /\ tidy dir_e re_meta /\
  names_stay re_loader re_tree dir_e re_meta /\ load_re re_tree = Ok re_engine /\ distinct ov_calls /\
  (forall i rq, injects ov_calls i rq -> stage_at demo_gaz ov_world i (Injected demo_gaz (Ok tt))) /\
  happened_re re_tree ov_history ov_serial /\ all_done ov_history /\
  Permutation (map fst ov_history) (requests ov_calls) /\
  rq_resources rooms' = Some (en_resources re_engine) /\ cu_usage (me_custom re_meta) = WithoutStems /\
  (forall e, requested (rq_adds rooms') e -> exists d g, stored demo_gaz dir_e re_meta e d /\ gz_load demo_gaz re_tree d = Ok g) /\
  (forall g vs b, exists g', gz_inject demo_gaz g vs true b = Ok g') /\
  (forall f d, snd (gz_remove demo_gaz f d) = Ok tt) /\ (forall f d g, snd (gz_dump demo_gaz f d g) = Ok tt) /\
  nth_error ov_calls 2 = Some Loads /\ stage_at demo_gaz ov_world 2 (Loaded demo_gaz (result_at ov_world 2)) /\
  result_at ov_world 2 = Ok ov_engine /\
  (re_answer ov_engine "please brighten the ATTIC" = (Some $"lightOn", []) /\
   re_answer after_engine "please brighten the ATTIC" = (Some $"lightOn", [($"ATTIC", SVCustom $"Attic")])) /\
  snd (run_of rooms re_tree) = Ok tt /\ snd (run_of garage re_tree) = Ok tt /\
  (forall e, requested (rq_adds garage) e <-> e = $"room") /\ is_custom re_meta $"room" /\
  stored demo_gaz dir_e re_meta $"room" room_dir /\ rq_resources blue = None /\
  gz_load demo_gaz (after garage re_tree) room_dir <> gz_load demo_gaz (after garage (after rooms re_tree)) room_dir.
Proof.
  split; [exact demo_gaz_ok|]. split; [exact re_assembled|]. split; [exact re_taggers|]. split; [exact re_needed|].
  split; [exact re_metadata|]. split; [exact re_tidy|]. split; [exact re_stay|]. split; [exact re_eq|].
  split; [exact ov_distinct|]. split; [exact ov_done|]. split; [exact ov_happened|]. split; [exact ov_all_done|].
  split; [exact ov_permutation|]. split; [reflexivity|]. split; [reflexivity|]. split; [exact ov_resources|].
  split; [intros g vs b; eexists; reflexivity|]. split; [reflexivity|]. split; [reflexivity|]. split; [reflexivity|].
  split; [exact ov_loaded|]. split; [exact ov_engine_eq|]. split; [exact ov_answers|].
  split; [vm_compute; reflexivity|]. split; [vm_compute; reflexivity|].
  split; [intros e; split; [intros (v & [J|[]]); injection J as <- _; reflexivity|intros ->; exists $"Garage"; left; reflexivity]|].
  split; [vm_compute; auto|]. split; [exact room_stored|]. split; [reflexivity|]. vm_compute. discriminate.
Qed.
