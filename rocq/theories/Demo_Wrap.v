(** Memory and programs for the examples of Properties_Memory and Properties_Wrap. *)
From Coq Require Import String List NArith ZArith Bool Arith Lia.
From Verif Require Import Base F32 M_Types M_Engine M_Filler M_Load M_Ffi S_Filler S_Ffi P_Ffi M_Memory S_Memory P_Memory
  M_Wrap M_Python M_Kotlin M_Swift S_Wrap P_Wrap Demo Demo_Load Demo_Ffi.
Import ListNotations.
Local Open Scope string_scope.
Local Open Scope list_scope.
Local Open Scope nat_scope.

Definition say (e : option error) : str :=
  match e with
  | None => $"no error"
  | Some EUnknownIntent => $"unknown intent"
  | Some EIo => $"cannot read"
  | Some _ => $"error"
  end.
Lemma say_no_zero e : ~ In 0%N (say e).
Proof. destruct e as [[]|]; vm_compute; intuition discriminate. Qed.

(** [show], without zeros. *)
Definition shown (o : output) : outcome str := let* s := show o in Ok (filter (fun c => negb (c =? 0)%N) s).
Lemma shown_no_zero o s : shown o = Ok s -> ~ In 0%N s.
Proof.
  unfold shown. destruct (show o) as [t|e|]; cbn [bind]; try discriminate. intros H. injection H as <-. intros I.
  apply filter_In in I as [_ I]. discriminate.
Qed.

(** ** Requests to the C interface *)
Definition held : list (Env * request) :=
  [(at_address 1, Call (CreateFromDir (c_str "e")));
   (at_address 2, Call (RunParse (Some 1) (c_str "light on in the kitchen") LNull LNull true));
   (at_address 3, Call (RunParse (Some 1) (c_str "light on in the kitchen") LNull LNull false));
   (at_address 4, Call (RunGetIntents (Some 1) (c_str "light on") false));
   (at_address 5, Call (RunGetSlots (Some 1) (c_str "light on") (c_str "unknown") false));
   (at_address 5, GetLastError);
   (at_address 6, Destroy KString (Some 2));
   (at_address 6, Destroy KIntents (Some 4));
   (at_address 6, Destroy KResult None);
   (at_address 2, Call GetModelVersion)].
Definition held_memory : Memory := fst (mrun demo_ext shown to_c say empty_memory held).
Definition held_answers : list answer := snd (mrun demo_ext shown to_c say empty_memory held).
Definition held_first : Memory := fst (mrun demo_ext shown to_c say empty_memory (firstn 1 held)).
Lemma held_client : client_at (mem_world held_first) 1 client1 false.
Proof.
  unfold held_first. cbn [firstn held mrun mstep]. unfold mcall.
  destruct (step demo_ext shown to_c (mem_world empty_memory) (at_address 1) (CreateFromDir (c_str "e"))) as [w r] eqn:E.
  pose proof (create_dir_call demo_ext shown to_c _ _ _ _ _ _ (demo_text "e" eq_refl) E) as H.
  cbn [env_dir at_address] in H. rewrite client1_eq in H. destruct H as (-> & H & _). cbn [allocates fst mem_world]. exact H.
Qed.
Lemma held_fresh : fresh_addresses demo_ext shown to_c say empty_memory held.
Proof. unfold held. cbn [fresh_addresses]. repeat split; vm_compute; intuition discriminate. Qed.

(** ** Programs *)
Definition fresh (m : Memory) : nat := S (list_max (in_use m)).
Definition demo_es : meets := fun _ m => at_address (fresh m).
Lemma demo_allocator : allocator demo_es.
Proof.
  intros i m I. cbn [env_address demo_es at_address] in I. unfold fresh in I.
  assert (H := proj1 (list_max_le (in_use m) (list_max (in_use m))) (Nat.le_refl _)).
  rewrite Forall_forall in H. apply H in I. lia.
Qed.
Definition step_by {O} (o : O) : meets * O := (demo_es, o).
Lemma steps_allocator {O} (l : list O) es o : In (es, o) (map step_by l) -> allocator es.
Proof. intros I. apply in_map_iff in I as (o' & E & _). injection E as <- <-. exact demo_allocator. Qed.

Definition one_client : Memory := mkMem (mkWorld [(1, mkClient client1 false)] None) [].
Lemma one_client_at : client_at (mem_world one_client) 1 client1 false.
Proof. reflexivity. Qed.
Lemma some_unicode s : forallb is_scalar s = true -> unicode s.
Proof. apply scalar_unicode. Qed.

Definition py_demo : list (meets * py_op) := map step_by
  [PyNew 0 (Some $"e") None;
   PyParse 0 $"light on in the kitchen" None (Some [$"setTemp"]) 0 1;
   PyGetSlots 0 $"light on" $"unknown" 0;
   PyNew 1 (Some $"nowhere") None;
   PyGetIntents 0 $"light on";
   PyNew 0 (Some $"e") None;
   PyParse 0 [104%N; 55296%N] None None 0 0;
   PyNew 2 (Some $"e") None;
   PyDel 0].
Definition py_demo_run (symbol : bool) := py_run demo_ext shown to_c say (fun s => s) symbol (mkPy empty_memory []) py_demo.

(** Intents that start with "n" are not converted. *)
Definition demo_view (o : output) : option str :=
  match o with OutText (110%N :: _) => None | OutText s => Some s | _ => None end.
Definition kt_demo : list (meets * kt_op) := map step_by
  [KtVersion;
   KtNewFile $"e";
   KtParse 0 $"light on in the kitchen" None (Some [$"setTemp"]) 0 1 false;
   KtParse 0 $"light on in the kitchen" (Some [$"lightOn"]) None 0 1 true;
   KtNewFile $"nowhere";
   KtGetIntents 0 $"light on" false;
   KtNewFile $"e";
   KtClose 0;
   KtGetSlots 1 $"light on" $"unknown" 0 true].
Definition kt_demo_run := kt_run demo_ext shown to_c say (fun s => s) demo_view (mkKt empty_memory []) kt_demo.
Definition sw_demo : list (meets * sw_op) := map step_by
  [SwNewURL 0 $"e";
   SwParse 0 $"light on in the kitchen" None (Some [$"setTemp"]) 0 1;
   SwNewURL 0 $"e";
   SwNewURL 1 $"nowhere";
   SwNewData 1 [1%N];
   SwGetIntents 0 $"light on";
   SwGetSlots 0 $"light on" $"unknown" 0].
Definition sw_demo_run := sw_run demo_ext shown to_c say demo_view (mkSw empty_memory []) sw_demo.

(** A query with a zero character. *)
Definition zero_query : str := $"light on in the kitchen" ++ [0%N] ++ $"zzz".
Lemma zero_unicode : unicode zero_query.
Proof. apply scalar_unicode. reflexivity. Qed.
Lemma zero_rust : (let* v := parse_with_alternatives demo_ext id_order id_order client1 zero_query None None 0 0 in shown (OutParse v)) = Ok $"none".
Proof. vm_compute. reflexivity. Qed.
Lemma zero_python : snd (py_parse demo_ext shown to_c say true demo_es (Some 1) zero_query None None 0 0 one_client) = Value $"lightOn".
Proof. vm_compute. reflexivity. Qed.
Lemma steps_of {O} (P : O -> Prop) (l : list O) es o : Forall P l -> In (es, o) (map step_by l) -> allocator es /\ P o.
Proof.
  intros F I. apply in_map_iff in I as (o' & E & I). injection E as <- <-. split; [exact demo_allocator|].
  rewrite Forall_forall in F. apply F. exact I.
Qed.
Lemma kt_demo_careful : no_use_after_close kt_demo.
Proof.
  intros l1 e o l2 n e1 E H I. apply In_nth_error in I as (j & I). assert (L : j < List.length l1) by (apply nth_error_Some; congruence).
  assert (J : nth_error kt_demo j = Some (e1, KtClose n)) by (rewrite E, nth_error_app1; assumption).
  assert (K : nth_error kt_demo (List.length l1) = Some (e, o)) by (rewrite E, nth_error_app2, Nat.sub_diag by lia; reflexivity).
  clear E I. generalize dependent (List.length l1). intros k L K. unfold kt_demo, step_by in J, K. cbn [map] in J, K.
  do 7 (destruct j as [|j]; [discriminate J|]). destruct j as [|j]; [|destruct j as [|j]; [discriminate J|destruct j; discriminate J]].
  injection J as _ <-. do 8 (destruct k as [|k]; [lia|]). destruct k as [|k]; [injection K as _ <-; discriminate H|destruct k; discriminate K].
Qed.
Lemma zero_refutes : ~ (forall x (js : output -> outcome str) cs (msg : option error -> str) symbol, (forall o s, js o = Ok s -> ~ In 0%N s) -> (forall e, ~ In 0%N (msg e)) ->
  forall es, allocator es -> forall m a en q m1 r,
  client_at (mem_world m) a en false -> unicode q ->
  py_parse x js cs msg symbol es (Some a) q None None 0 0 m = (m1, r) ->
  passed_on (python_message msg symbol)
    (let* v := parse_with_alternatives x (env_ord1 (es 0 m)) (env_ord2 (es 0 m)) en q None None 0 0 in js (OutParse v)) m m1 r).
Proof.
  intros H. specialize (H demo_ext shown to_c say true shown_no_zero say_no_zero demo_es demo_allocator one_client 1 client1 zero_query).
  destruct (py_parse demo_ext shown to_c say true demo_es (Some 1) zero_query None None 0 0 one_client) as [m1 r] eqn:E.
  specialize (H m1 r one_client_at zero_unicode eq_refl). pose proof zero_python as Z. rewrite E in Z. cbn [snd] in Z.
  change (env_ord1 (demo_es 0 one_client)) with id_order in H. change (env_ord2 (demo_es 0 one_client)) with id_order in H.
  rewrite zero_rust in H. destruct H as [H _]. rewrite Z in H. discriminate.
Qed.
