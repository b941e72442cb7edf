(** C67: the execution-time statistics of controllers. *)
From Coq Require Import List String Arith Bool ZArith Lia Sorting.Permutation.
From Verif.Model Require Import Base Scheduler Controller Manager.
From Verif.Spec Require Import SchedulerSpec ManagerSpec SystemSpec StatsSpec.
From Verif.Proofs Require Import ManagerProofs ManagerInv ManagerOps WorldSteps StatsProofs.
From Verif.Props Require Import ManagerProps.
Import ListNotations.

Section Theorems.
Context {W : Type} (H : hooks W) (HP : positive_periods H).
Notation mgr := (mgr W).

(** Every cycle adds exactly one sample for every loaded controller, running or not: the time between the clock reading right
    before and the one right after its update callback (none if it is not running), in the world as it is after the
    callbacks made before it in this cycle; it counts as an overrun, stamped with the end time, iff it is longer than a
    millisecond. *)
Theorem C67_one_sample_per_cycle : forall l1 l2 (m m' : mgr) e, reachable H m -> update H l1 l2 m = Ok m' -> In e (loaded m) ->
  exists cbs rest w t0 w0 t1 w1,
    let p := e_ptr e in
    trace m' = trace m ++ [EvPropagate; EvZero] ++ cb_events cbs ++ (if runningb m p then [EvCb p CbUpdate] else []) ++ rest /\
    acts H cbs (h_zero H (h_propagate H (snd (h_now H (world m))))) w /\
    h_now H w = (t0, w0) /\
    h_now H (if runningb m p then h_cb H p CbUpdate w0 else w0) = (t1, w1) /\
    one_more (t1 - t0) t1 (co_stats (heap m p)) (co_stats (heap m' p)).
Proof.
  intros l1 l2 m m' e RE U IN. pose proof (inv_of H HP m RE) as INV. destruct HP as [P1 P2].
  destruct (cycle_stats H l1 l2 m m' INV P1 P2 U) as (_ & A & _).
  destruct (A e IN) as (cbs & rest & w & t0 & w0 & t1 & w1 & T & AC & N0 & N1 & OM).
  exists cbs, rest, w, t0, w0, t1, w1. cbv zeta. split; [|repeat (split; [assumption|]); assumption].
  rewrite T. do 2 f_equal. unfold cb_events. rewrite map_app, <- app_assoc. unfold own. destruct (runningb m (e_ptr e)); reflexivity.
Qed.

(** Nothing else touches the statistics of a loaded controller, and a newly loaded one starts with none. *)
Theorem C67_only_cycles_count : forall (m : mgr) o a m', reachable H m -> (forall l1 l2, o <> OpUpdate l1 l2) -> step H m o (Ok (a, m')) ->
  forall e, In e (loaded m') ->
    (In e (loaded m) /\ co_stats (heap m' (e_ptr e)) = co_stats (heap m (e_ptr e))) \/
    (~ In e (loaded m) /\ co_stats (heap m' (e_ptr e)) = mkStats [] 0 0%Z).
Proof.
  intros m o a m' RE NU S e IN. pose proof (inv_of H HP m RE) as INV.
  destruct (service_stats H m o a m' INV NU S) as (A & B & _). destruct (B e IN) as [OLD|[NEW ST]]; [left; auto|right].
  split; [|exact ST]. intros I2. pose proof (inv_lt m INV e I2) as LT. rewrite NEW in LT. cbn [e_ptr] in LT. lia.
Qed.

(** In every reachable state the overrun counter of a loaded controller is the number of its samples longer than a
    millisecond, and the overrun time is zero until the first one. *)
Definition counted (s : stats) : Prop :=
  st_overruns s = overruns_in (st_samples s) /\ (st_overruns s = 0 -> st_last_overrun s = 0%Z).
Lemma counted_more d t s s' : counted s -> one_more d t s s' -> counted s'.
Proof.
  intros (A & B) (S1 & S2 & S3). unfold counted, overruns_in in *. rewrite S1, filter_app, app_length. cbn [filter].
  unfold overrun, overrunb in *. destruct (Z.ltb_spec 1000000 d) as [L|L].
  - destruct (S2 L) as [-> _]. cbn [List.length]. split; [lia|lia].
  - destruct S3 as [E1 E2]; [lia|]. rewrite E1, E2. cbn [List.length]. split; [lia|auto].
Qed.
Theorem C67_overruns_counted : forall (m : mgr) e, reachable H m -> In e (loaded m) -> counted (co_stats (heap m (e_ptr e))).
Proof.
  intros m e RE. revert e. induction RE as [m I|m o a m' RE IH S]; intros e IN.
  - destruct I as (L & _). unfold loaded in IN. rewrite L in IN. destruct IN.
  - destruct o as [env n|n|st sp k|l1 l2|f|].
    4:{ pose proof (inv_of H HP m RE) as INV. pose proof (service_world H m _ a m' S) as U; cbn in U.
        destruct (update_spec H l1 l2 m INV (proj1 HP) (proj2 HP)) as (m2 & ? & ? & U2 & _ & L2 & _). rewrite U in U2. injection U2 as <-.
        rewrite L2 in IN. destruct (C67_one_sample_per_cycle l1 l2 m m' e RE U IN) as (? & ? & ? & ? & ? & ? & ? & _ & _ & _ & _ & OM).
        eapply counted_more; [|exact OM]. auto. }
    all: unshelve epose proof (C67_only_cycles_count m _ a m' RE _ S e IN) as Q; [intros ? ? X; discriminate X|]; destruct Q as [(OLD & ->)|(_ & ->)]; [auto|split; auto].
Qed.

(** Every statistics message ever published has one entry per controller loaded then, each with at least one sample (so the
    mean and maximum that the message carries exist) and with the overrun count of those samples. *)
Theorem C67_published_statistics : forall (m : mgr) ss c, reachable H m -> In (EvPubMech ss) (trace m) -> In c ss ->
  cs_samples c <> [] /\ cs_overruns c = overruns_in (cs_samples c) /\ (cs_overruns c = 0 -> cs_last_overrun c = 0%Z).
Proof.
  intros m ss c RE IN IC. induction RE as [m I|m o a m' RE IH S].
  - destruct I as (_ & _ & _ & _ & _ & _ & _ & _ & T & _). rewrite T in IN. destruct IN.
  - pose proof (inv_of H HP m RE) as INV.
    destruct o as [env n|n|st sp k|l1 l2|f|].
    4:{ pose proof (service_world H m _ a m' S) as U; cbn in U.
        destruct (cycle_stats H l1 l2 m m' INV (proj1 HP) (proj2 HP) U) as (_ & _ & r & T & PUB).
        rewrite T in IN. apply in_app_or in IN. destruct IN as [IN|IN]; [auto|]. destruct (PUB ss IN) as (NM & EN).
        destruct (In_nth_error _ _ IC) as (j & Hj).
        assert (LEN : List.length ss = List.length (loaded m)) by (rewrite <- (map_length cs_name), NM, map_length; reflexivity).
        destruct (nth_error (loaded m) j) as [e|] eqn:He.
        2:{ apply nth_error_None in He. assert (nth_error ss j <> None) by congruence. apply nth_error_Some in H0. lia. }
        destruct (EN j e c He Hj) as (_ & A & B & C). apply nth_error_In in He.
        destruct (C67_one_sample_per_cycle l1 l2 m m' e RE U He) as (? & ? & ? & ? & ? & ? & ? & _ & _ & _ & _ & (SM & _)).
        assert (RE' : reachable H m') by (eapply reach_step; eauto).
        destruct (update_spec H l1 l2 m INV (proj1 HP) (proj2 HP)) as (m2 & ? & ? & U2 & _ & L2 & _). rewrite U in U2. injection U2 as <-.
        rewrite <- L2 in He. destruct (C67_overruns_counted m' e RE' He) as (K1 & K2). rewrite A, B, C.
        split; [rewrite SM; intros X; apply app_eq_nil in X; destruct X; discriminate|]. auto. }
    all: unshelve epose proof (service_stats H m _ a m' INV _ S) as Q; [intros ? ? X; discriminate X|]; destruct Q as (_ & _ & r & T & NP); rewrite T in IN; apply in_app_or in IN;
      destruct IN as [IN|IN]; [auto|elim (NP ss IN)].
Qed.
End Theorems.

(** updates take 2 ms: the two running controllers overran once, in the last cycle, the third one does not run *)
Definition slowH : hooks exW :=
  mkHooks exW (fun w => (fst w, (fst w + 5, snd w)%Z)) (fun w => w) (fun w => w) snd (fun w => w) (fun w => w)
    (fun _ k w => match k with CbUpdate => (fst w + 2000000, snd w)%Z | _ => w end) (fun _ w => w) (fun _ w => w) 1000000000%Z 10000000%Z.
Definition slow_ops := ex_ops ++ [OpUpdate false false].
Definition slow1 : mgr exW := match exec slowH slow_ops ex0 with Some m => m | None => ex0 end.
Example C67_ex : reachable slowH slow1 /\ positive_periods slowH /\
  map (fun e => (e_name e, co_stats (heap slow1 (e_ptr e)))) (loaded slow1) =
  [("a"%string, mkStats [5; 5; 5; 2000005]%Z 1 2000190%Z); ("b"%string, mkStats [5; 5; 2000005]%Z 1 4000200%Z); ("c"%string, mkStats [5; 5; 5]%Z 0 0%Z)].
Proof.
  split; [|split; [split; reflexivity|vm_compute; reflexivity]].
  apply exec_reachable with slow_ops ex0; [apply reach_init; repeat split|].
  unfold slow1. assert (X : match exec slowH slow_ops ex0 with Some _ => true | None => false end = true) by (vm_compute; reflexivity).
  destruct (exec slowH slow_ops ex0); [reflexivity|discriminate].
Qed.
