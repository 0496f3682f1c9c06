(** Specification vocabulary for C91: histories of injections. *)
From Coq Require Import String List NArith ZArith.
From Verif Require Import Base M_Types M_Engine M_Features M_Res M_Fs M_Json M_Load M_Inject S_Load S_Inject S_Reload.
Import ListNotations.

(** What one injection asks for. *)
Record Request := mkRq { rq_adds : list (str * str); rq_vanilla : bool; rq_resources : option Resources }.

(** Injections made one after the other in the directory [p], from the tree [f] to the tree [f'].
    Each one has succeeded ([true]), or has failed or was interrupted at any point ([false]). *)
Inductive happened (x : Ext) (L : Loader) (fo : path -> orders) (uo : path -> nat -> HashOrder) (G : Gaz) (p : path)
  : fs -> list (Request * bool) -> fs -> Prop :=
| happened_none f : happened x L fo uo G p f [] f
| happened_done f rq o1 o2 o3 t l f' :
    inject x L fo uo G o1 o2 o3 (request p (rq_adds rq) (rq_vanilla rq) (rq_resources rq)) f = (t, Ok tt) ->
    happened x L fo uo G p (apply_ops f t) l f' -> happened x L fo uo G p f ((rq, true) :: l) f'
| happened_cut f rq o1 o2 o3 t1 t2 l f' :
    fst (inject x L fo uo G o1 o2 o3 (request p (rq_adds rq) (rq_vanilla rq) (rq_resources rq)) f) = t1 ++ t2 ->
    happened x L fo uo G p (apply_ops f t1) l f' -> happened x L fo uo G p f ((rq, false) :: l) f'.

Definition all_done (l : list (Request * bool)) : Prop := forall rq b, In (rq, b) l -> b = true.
(** What one injection gives to one entity: the values, whether they replace all those injected
    before, and the resources. *)
Record Given := mkGiven { gv_values : list str; gv_vanilla : bool; gv_resources : option Resources }.
(** What the injections give to the entity [e], in order, without those that give it no value. *)
Definition given (e : str) (l : list (Request * bool)) : list Given :=
  flat_map (fun r => match values_of (rq_adds (fst r)) e with
                     | [] => []
                     | vs => [mkGiven vs (rq_vanilla (fst r)) (rq_resources (fst r))]
                     end) l.

(** The stemmer of an injection into the directory of the engine [en]. *)
Definition stemmer_of (en : Engine) (gv : Given) : option (str -> str) :=
  rs_stemmer (match gv_resources gv with Some r => r | None => en_resources en end).
(** The parser of the entity [e], before and after: updated once for each injection that gives it
    values, in order. *)
Inductive grows (G : Gaz) (x : Ext) (m : Meta) (en : Engine) (e : str) : list Given -> gz_parser G -> gz_parser G -> Prop :=
| grows_none g : grows G x m en e [] g g
| grows_more gv l g vs g1 g' : handed x m (stemmer_of en gv) e (gv_values gv) vs ->
    gz_inject G g vs true (gv_vanilla gv) = Ok g1 -> grows G x m en e l g1 g' -> grows G x m en e (gv :: l) g g'.
