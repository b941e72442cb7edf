(** Halted motors when service threads and the hardware run between any two steps of the realtime thread. *)
From Coq Require Import List String Arith Bool ZArith.
From Verif.Model Require Import Base Num Joint Hardware Transmission Controller Manager ManagerConc Robot System.
From Verif.Spec Require Import SystemSpec HaltSpec ConcSpec ConcSystemSpec.
Import ListNotations.

(** [conc_look H p0 m0 ls c seen]: the interleaving [ls] (without a stale start) leads from the idle manager [m0] to [c], and
    [seen] is the memory at the moment the realtime thread last began to update controllers; the memory left by initXml if it
    has not done so yet. *)
Inductive conc_look {Tr T X} (H : hooks (sysw Tr T X)) (p0 : plant Tr T) (m0 : mgr (sysw Tr T X)) :
  list (label (sysw Tr T X)) -> config (sysw Tr T X) -> mem T -> Prop :=
| clook_init : conc_look H p0 m0 [] (quiet m0) (pl_mem p0)
| clook_now ls c seen a b c' p : conc_look H p0 m0 ls c seen -> bstep H (LRt a b) c = Some (Ok c') -> ~ stale_start c ->
    rt c' = RUpdate 0 -> sy_plant (world (mg c')) = Ok p -> conc_look H p0 m0 (ls ++ [LRt a b]) c' (pl_mem p)
| clook_realtime ls c seen a b c' : conc_look H p0 m0 ls c seen -> bstep H (LRt a b) c = Some (Ok c') -> ~ stale_start c ->
    rt c' <> RUpdate 0 -> conc_look H p0 m0 (ls ++ [LRt a b]) c' seen
| clook_other ls c seen l c' : conc_look H p0 m0 ls c seen -> bstep H l c = Some (Ok c') -> (forall a b, l <> LRt a b) ->
    conc_look H p0 m0 (ls ++ [l]) c' seen.

(** From [c], where a cycle has just chosen what to do, with the realtime thread not yet idle again before any of the steps. *)
Inductive same_cycle {W} (H : hooks W) (c : config W) : list (label W) -> config W -> Prop :=
| cycle_nil : same_cycle H c [] c
| cycle_snoc ls c1 l c2 : same_cycle H c ls c1 -> rt c1 <> RIdle -> bstep H l c1 = Some (Ok c2) -> same_cycle H c (ls ++ [l]) c2.
