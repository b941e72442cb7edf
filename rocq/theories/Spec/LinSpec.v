(** C29: what it means that concurrent calls behave as if executed one after the other. *)
From Coq Require Import List String Arith Bool ZArith.
From Verif.Model Require Import Base Scheduler Controller Manager ManagerConc.
From Verif.Spec Require Import ManagerSpec ConcSpec.
Import ListNotations.

(** Thread [k] calls; the call takes effect with a certain answer; the call returns. *)
Inductive hevent :=
| HInv (k : nat) (c : call)
| HLin (k : nat) (c : call) (a : answer)
| HRes (k : nat) (a : answer).

(** Each thread: called, took effect once, returned the answer the effect had. *)
Inductive pstate := Out | Called (c : call) | Took (a : answer).
Inductive protocol (k : nat) : list hevent -> pstate -> Prop :=
| pr_nil : protocol k [] Out
| pr_other h e s : protocol k h s ->
    (match e with HInv j _ | HLin j _ _ | HRes j _ => j <> k end) -> protocol k (h ++ [e]) s
| pr_inv h c : protocol k h Out -> protocol k (h ++ [HInv k c]) (Called c)
| pr_lin h c a : protocol k h (Called c) -> protocol k (h ++ [HLin k c a]) (Took a)
| pr_res h a : protocol k h (Took a) -> protocol k (h ++ [HRes k a]) Out.

(** the effects, in order *)
Definition effects (h : list hevent) : list (call * answer) :=
  flat_map (fun e => match e with HLin _ c a => [(c, a)] | _ => [] end) h.

Section Lin.
Context {W : Type} (H : hooks W).

(** The set of loaded controllers: names, objects, types, dependencies, and the execution schedule. *)
Definition catb (m : mgr W) (b : bool) :=
  (map (fun e => (e, co_type (heap m (e_ptr e)), co_deps (heap m (e_ptr e)))) (lists m b), scheds m b).
Definition catalogue (m : mgr W) := catb m (cur m).
Definition cat := (list (entry * string * deps) * list nat)%type.

(** What the call does when executed alone in state [m] (the sequential operations of C09-C15). *)
Definition alone (c : call) (m : mgr W) (a : answer) (K' : cat) : Prop :=
  match c with
  | CLoad env n => exists m', loadController H env n m = Ok (a, m') /\ catalogue m' = K'
  | CUnload n => exists m', unloadController n m = Ok (a, m') /\ catalogue m' = K'
  | CSwitch start stop s => K' = catalogue m /\ exists b, a = Returned b /\
      (b = true <-> s <> STRICT \/ forall n, In n (start ++ stop) -> In n (loaded_names m))
  end.

(** Every effect is that of the call executed alone in some state with the controllers left by the effect
    before it. (Which controllers run may change in between: the realtime thread switches them.) *)
Inductive legal : cat -> list (call * answer) -> cat -> Prop :=
| leg_nil K : legal K [] K
| leg_snoc K h m c a K' : legal K h (catalogue m) -> alone c m a K' -> legal K (h ++ [(c, a)]) K'.

(** Where calls begin, take effect and end in the code. *)
Definition hevs (l : label W) (c : config W) : list hevent :=
  match l with
  | LTh k =>
      match thr c k with
      | TProg _ (PCall cl _) => [HInv k cl]
      | TBody _ cl _ =>
          match body H cl (mg c) with
          | Rejected _ => [HLin k cl (Returned false); HRes k (Returned false)]
          | Thrown _ => [HLin k cl Exception; HRes k Exception]
          | Ready _ => match cl with CSwitch _ _ _ => [HLin k cl (Returned true)] | _ => [] end
          | Broken => []
          end
      | TFlip _ cl _ => [HLin k cl (Returned true)]
      | TClear _ _ _ => [HRes k (Returned true)]
      | TSw _ _ => if rosok c && please (mg c) then [] else [HRes k (Returned true)]
      | TWait1b _ _ _ | TWait2b _ _ _ | TSwb _ _ => if rosok c then [] else [HRes k (Returned false)]
      | _ => []
      end
  | _ => []
  end.

(** An execution with its history. *)
Inductive hsteady : config W -> list hevent -> config W -> Prop :=
| hst_nil c : hsteady c [] c
| hst_snoc c h c1 l c2 : hsteady c h c1 -> bstep H l c1 = Some (Ok c2) ->
    (forall a b, l = LRt a b -> ~ stale_start c1) -> hsteady c (h ++ hevs l c1) c2.

(** continuation of the call a thread is in *)
Definition cont (t : tstate) : option (answer -> prog) :=
  match t with
  | TLock _ _ k | TWait1 _ _ k | TWait1b _ _ k | TBody _ _ k | TPub _ _ k | TFlip _ _ k | TWait2 _ _ k
  | TWait2b _ _ k | TClear _ _ k | TSw _ k | TSwb _ k => Some k
  | _ => None
  end.
End Lin.
