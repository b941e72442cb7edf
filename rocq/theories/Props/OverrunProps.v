(** C95: execution times and overruns under every interleaving. *)
From Coq Require Import List String Arith Bool ZArith Lia.
From Verif.Model Require Import Base Scheduler Controller Manager ManagerConc.
From Verif.Spec Require Import SchedulerSpec ManagerSpec SystemSpec ConcSpec StatsSpec.
From Verif.Proofs Require Import SchedulerProofs ManagerProofs ManagerInv ManagerOps StatsProofs ConcBase ConcInv ConcTrace ConcHist ConcCycle
  ConcProgress TimeConc OverrunConc.
From Verif.Props Require Import ManagerProps StatsProps ConcProps TimeProps.
Import ListNotations.

Section Theorems.
Context {W : Type} (H : hooks W) (HP : positive_periods H).
Notation mgr := (mgr W).
Notation config := (config W).
Let Hpm : (0 < h_per_mech H)%Z := proj1 HP.
Let Hpj : (0 < h_per_js H)%Z := proj2 HP.

(** One iteration of the update loop, whatever clients are doing: the controller whose turn it is gets one more sample, the
    time between the two clock readings around its update (which is called iff it is running); the counter and the time of
    the last overrun follow; nobody else's statistics change. *)
Theorem C95_one_update : forall (c : config) a b c' bb i p, live H c -> rt c = RUpdate i -> used (mg c) = Some bb ->
  nth_error (order_of (mg c) bb) i = Some p -> bstep H (LRt a b) c = Some (Ok c') ->
  rt c' = RUpdate (S i) /\
  exists t0 w0 t1 w1, h_now H (world (mg c)) = (t0, w0) /\
    h_now H (if runningb (mg c) p then h_cb H p CbUpdate w0 else w0) = (t1, w1) /\ world (mg c') = w1 /\
    one_more (t1 - t0) t1 (co_stats (heap (mg c) p)) (co_stats (heap (mg c') p)) /\
    forall q, q <> p -> co_stats (heap (mg c') q) = co_stats (heap (mg c) q).
Proof.
  intros c a b c' bb i p L Hr Hu Hn E. pose proof (live_inv H Hpm Hpj c L) as I. pose proof (used_good c bb I Hu) as G.
  cbn [bstep] in E. injection E as E. unfold do_rt in E. rewrite Hr in E. cbn [rt_step] in E. unfold rt_list in E. rewrite Hu in E. cbn [bind] in E.
  assert (LT : i < List.length (lists (mg c) bb)).
  { rewrite <- (order_in_list_length (mg c) bb G), <- (map_length e_ptr), <- order_of_map. apply nth_error_Some. congruence. }
  destruct (rt_nth_good (mg c) bb i G Hu LT) as (e & N1 & N2 & _).
  assert (p = e_ptr e) as -> by (apply order_of_nth in N2; congruence).
  apply Nat.ltb_lt in LT. rewrite LT in E. destruct (rt_update_one H (mg c) i) as [m1| | |] eqn:U; cbn [bind] in E; try discriminate.
  destruct (update_one_full H _ _ _ U) as (e' & t0 & w0 & t1 & w1 & N3 & E0 & E1 & EW & OM & OTH). assert (e' = e) as -> by congruence.
  injection E as <-. split; [reflexivity|]. cbn [mg]. exists t0, w0, t1, w1. auto.
Qed.

Lemma live_counted c : live H c -> all_q counted (mg c).
Proof.
  intros (m & ls & Hr & Hp & S & Ho). remember (quiet m) as c0 eqn:E0. induction S as [c|c ls c1 l c2 S IH E Hst]; subst.
  - apply (reach_q H Hpm Hpj counted); [split; reflexivity|apply counted_more|exact Hr].
  - pose proof (rosok_back H _ _ _ E Ho) as Hr1. specialize (IH eq_refl Hr1).
    assert (I1 : InvB c1) by (apply (live_inv H Hpm Hpj); exists m, ls; auto).
    eapply (step_q H Hpm Hpj counted); [split; reflexivity|apply counted_more|exact I1|exact Hr1|exact E|exact Hst|exact IH].
Qed.

(** In every reachable moment the overrun counter of every controller, loaded or being loaded or unloaded, is the number of
    its samples longer than a millisecond ... *)
Theorem C95_overruns_counted : forall (c : config) b e, live H c -> (b = cur (mg c) \/ used (mg c) = Some b) -> In e (lists (mg c) b) ->
  counted (co_stats (heap (mg c) (e_ptr e))).
Proof.
  intros c b e L Hb IN. pose proof (live_inv H Hpm Hpj c L) as I. apply (live_counted c L).
  assert (G : GoodList (mg c) b) by (destruct Hb as [->|Hb]; [apply (co_cur _ (ib_core c I))|exact (used_good c b I Hb)]).
  apply (gl_lt _ _ G e IN).
Qed.

(** ... and so it is in every statistics message ever published. *)
Definition shown (m : mgr) : Prop := forall ss x, In (EvPubMech ss) (trace m) -> In x ss -> counted (mkStats (cs_samples x) (cs_overruns x) (cs_last_overrun x)).
Lemma live_shown c : live H c -> shown (mg c).
Proof.
  intros (m & ls & Hr & Hp & S & Ho). remember (quiet m) as c0 eqn:E0. induction S as [c|c ls c1 l c2 S IH E Hst]; subst.
  - intros ss x IN INx. destruct (C67_published_statistics H HP m ss x Hr IN INx) as (_ & A & B). split; [exact A|exact B].
  - pose proof (rosok_back H _ _ _ E Ho) as Hr1. specialize (IH eq_refl Hr1).
    assert (L1 : live H c1) by (exists m, ls; auto). pose proof (live_inv H Hpm Hpj c1 L1) as I1. pose proof (live_counted c1 L1) as CT.
    destruct (step_cases H l c1 c2 I1 Hr1 E Ho) as [(a & b & -> & E')|C].
    + destruct (do_rt_desc H Hpm Hpj a b c1 c2 I1 (Hst a b eq_refl) E') as (evs & T & D & _).
      intros ss x IN INx. rewrite T in IN. apply in_app_or in IN. destruct IN as [IN|IN]; [exact (IH ss x IN INx)|].
      assert (Q : exists t, rt c1 = RFill t).
      { unfold rt_desc in D. destruct (rt c1) as [|y| |i|i|i| | |t| | |ps|ps|] eqn:R; try (now eauto); exfalso.
        - destruct D as (_ & _ & ->). destruct IN.
        - destruct D as (_ & _ & ->). destruct IN.
        - destruct D as (_ & _ & -> & _). destruct IN as [IN|[IN|[]]]; discriminate.
        - destruct D as (_ & b' & _ & [(e & _ & _ & D)|(_ & -> & _)]); [|destruct IN].
          destruct (runningb (mg c1) (e_ptr e)); destruct D as (-> & _); [destruct IN as [IN|[]]; discriminate|destruct IN].
        - destruct D as (_ & b' & e & _ & _ & _ & -> & _). destruct IN as [IN|[]]; discriminate.
        - destruct D as (_ & _ & b' & _ & [(e & _ & _ & _ & ->)|(_ & -> & _)]).
          + destruct (runningb (mg c1) (e_ptr e)); [destruct IN as [IN|[]]; discriminate|destruct IN].
          + destruct IN as [IN|[]]; discriminate.
        - destruct D as (_ & _ & -> & _). destruct IN as [IN|[]]; discriminate.
        - destruct D as (_ & _ & -> & _). destruct IN.
        - destruct D as (_ & _ & _ & [-> | ->]); [destruct IN|destruct IN as [IN|[]]; discriminate].
        - destruct D as (_ & -> & _). destruct IN.
        - destruct ps as [|p ps]; [destruct D as (_ & -> & _); destruct IN|]. destruct D as (_ & _ & -> & _). destruct IN as [IN|[]]; discriminate.
        - destruct ps as [|p ps]; [destruct D as (_ & -> & _); destruct IN|]. destruct D as (_ & _ & -> & _). destruct IN as [IN|[]]; discriminate.
        - destruct D as (_ & -> & _). destruct IN as [IN|[]]; discriminate. }
      destruct Q as [t R]. unfold rt_desc in D. rewrite R in D. destruct D as (_ & _ & _ & -> & Hu & Hn & Hv). destruct IN as [IN|[]]. injection IN as <-.
      destruct (In_nth_error _ _ INx) as (j & J). destruct (nth_error (loaded (mg c1)) j) as [e|] eqn:Je.
      2:{ apply nth_error_None in Je. assert (LN : List.length (mstats (mg c2)) = List.length (loaded (mg c1))) by (rewrite <- (map_length cs_name), Hn; apply map_length).
          assert (j < List.length (mstats (mg c2))) by (apply nth_error_Some; congruence). lia. }
      destruct (Hv j e x Je J) as (_ & _ & A1 & A2 & A3). rewrite A1, A2, A3.
      pose proof (CT (e_ptr e) (gl_lt _ _ (used_good c1 _ I1 Hu) e (nth_error_In _ _ Je))) as (B1 & B2). split; [exact B1|exact B2].
    + intros ss x IN INx. destruct (cl_evs c1 c2 C) as (evs & T & P). rewrite T in IN. apply in_app_or in IN. destruct IN as [IN|IN]; [exact (IH ss x IN INx)|].
      exfalso. destruct P as [(N & _)|[(-> & _)|(-> & _)]].
      * rewrite Forall_forall in N. destruct (N _ IN) as [X|(p & b & X)]; discriminate.
      * destruct IN as [IN|[]]; discriminate.
      * destruct IN as [IN|[]]; discriminate.
Qed.
Theorem C95_published_overruns : forall (c : config) ss x, live H c -> In (EvPubMech ss) (trace (mg c)) -> In x ss ->
  cs_samples x <> [] /\ cs_overruns x = overruns_in (cs_samples x) /\ (cs_overruns x = 0 -> cs_last_overrun x = 0%Z).
Proof.
  intros c ss x L IN INx. destruct (live_samples H HP c L) as (_ & TD). split; [exact (TD ss x IN INx)|].
  destruct (live_shown c L ss x IN INx) as (A & B). split; [exact A|exact B].
Qed.
End Theorems.

(* ------------------------------------------------------------------ a concrete case *)
(** only the update of "b" takes more than a millisecond; statistics are due every 2 ms; while the control loop goes on,
    controller "d" is loaded *)
Local Open Scope string_scope.
Definition lateH : hooks exW :=
  mkHooks exW (fun w => (fst w, (fst w + 5, snd w)%Z)) (fun w => w) (fun w => w) snd (fun w => w) (fun w => w)
    (fun p k w => match k with CbUpdate => (fst w + (if Nat.eqb p 1 then 1000001 else 100), snd w)%Z | _ => w end) (fun _ w => w) (fun _ w => w) 2000000%Z 1000000000%Z.
Definition late1 : mgr exW := match exec lateH ex_ops ex0 with Some m => m | None => ex0 end.
Definition late2 : config exW := reached lateH time_run late1.
Definition late_messages : list (list cstat) := flat_map (fun e => match e with EvPubMech ss => [ss] | _ => [] end) (trace (mg late2)).
Example C95_ex : live lateH late2 /\ positive_periods lateH /\
  map (map (fun x => (cs_name x, cs_overruns x, cs_last_overrun x))) late_messages =
  [[("a", 0, 0%Z); ("b", 4, 4000804%Z); ("c", 0, 0%Z); ("d", 0, 0%Z)]; [("a", 0, 0%Z); ("b", 6, 6001151%Z); ("c", 0, 0%Z); ("d", 0, 0%Z)]] /\
  map (fun x => (cs_name x, overruns_in (cs_samples x))) (List.concat late_messages) =
  [("a", 0); ("b", 4); ("c", 0); ("d", 0); ("a", 0); ("b", 6); ("c", 0); ("d", 0)].
Proof.
  split; [|split; [split; reflexivity|split; vm_compute; reflexivity]].
  apply reached_live; [|vm_compute; reflexivity|vm_compute; reflexivity].
  apply exec_reachable with ex_ops ex0; [apply reach_init; repeat split|].
  unfold late1. assert (X : match exec lateH ex_ops ex0 with Some _ => true | None => false end = true) by (vm_compute; reflexivity).
  destruct (exec lateH ex_ops ex0); [reflexivity|discriminate].
Qed.
(** the step theorem applies: the control loop is about to run "b" *)
Definition late3 : config exW := reached lateH (rts 5) late1.
Example C95_ex_step : live lateH late3 /\ rt late3 = RUpdate 2 /\ used (mg late3) = Some (cur (mg late3)) /\
  nth_error (order_of (mg late3) (cur (mg late3))) 2 = Some 1 /\ runningb (mg late3) 1 = true /\
  match bstep lateH (LRt true true) late3 with
  | Some (Ok c') => Some (co_stats (heap (mg late3) 1), co_stats (heap (mg c') 1))
  | _ => None
  end = Some (mkStats [5; 5]%Z 0 0%Z, mkStats [5; 5; 1000006]%Z 1 1000301%Z).
Proof.
  split; [|do 4 (split; [vm_compute; reflexivity|]); vm_compute; reflexivity].
  apply reached_live; [|vm_compute; reflexivity|vm_compute; reflexivity].
  apply exec_reachable with ex_ops ex0; [apply reach_init; repeat split|].
  unfold late1. assert (X : match exec lateH ex_ops ex0 with Some _ => true | None => false end = true) by (vm_compute; reflexivity).
  destruct (exec lateH ex_ops ex0); [reflexivity|discriminate].
Qed.
