(** C90: the execution times published for the controllers. *)
From Coq Require Import List String Arith Bool ZArith Reals Lia Lra.
From Verif.Model Require Import Base Num Transmission Scheduler Controller Manager ManagerConc TimeStats.
From Verif.Spec Require Import SchedulerSpec ManagerSpec ConcSpec StatsSpec TimeSpec.
From Verif.Proofs Require Import SchedulerProofs ManagerProofs ManagerInv ManagerOps ConcBase ConcInv ConcTrace ConcHist ConcCycle
  ConcProgress TimeProofs TimeConc.
From Verif.Props Require Import ManagerProps StatsProps ConcProps.
Import ListNotations.

Section Theorems.
Context {W : Type} (H : hooks W) (HP : positive_periods H).
Notation mgr := (mgr W).
Notation config := (config W).

Let Hpm : (0 < h_per_mech H)%Z := proj1 HP.
Let Hpj : (0 < h_per_js H)%Z := proj2 HP.

Definition told (m : mgr) : Prop := forall ss x, In (EvPubMech ss) (trace m) -> In x ss -> cs_samples x <> [].

Lemma told_rt a b c c' : InvB c -> ~ stale_start c -> do_rt H a b c = Ok c' -> sampled c -> told (mg c) -> told (mg c').
Proof.
  intros I NS E S TD ss x IN. destruct (do_rt_desc H Hpm Hpj a b c c' I NS E) as (evs & T & D & _). rewrite T in IN.
  apply in_app_or in IN. destruct IN as [IN|IN]; [now apply TD|].
  unfold rt_desc in D. destruct (rt c) as [|y| |i|i|i| | |t| | |ps|ps|] eqn:Hr.
  - destruct D as (_ & _ & ->). destruct IN.
  - destruct D as (_ & _ & ->). destruct IN.
  - destruct D as (_ & _ & -> & _). destruct IN as [IN|[IN|[]]]; discriminate.
  - destruct D as (_ & b' & _ & [(e & _ & _ & D)|(_ & -> & _)]); [|destruct IN].
    destruct (runningb (mg c) (e_ptr e)); destruct D as (-> & _); [destruct IN as [IN|[]]; discriminate|destruct IN].
  - destruct D as (_ & b' & e & _ & _ & _ & -> & _). destruct IN as [IN|[]]; discriminate.
  - destruct D as (_ & _ & b' & _ & [(e & _ & _ & _ & ->)|(_ & -> & _)]).
    + destruct (runningb (mg c) (e_ptr e)); [destruct IN as [IN|[]]; discriminate|destruct IN].
    + destruct IN as [IN|[]]; discriminate.
  - destruct D as (_ & _ & -> & _). destruct IN as [IN|[]]; discriminate.
  - destruct D as (_ & _ & -> & _). destruct IN.
  - destruct D as (_ & _ & _ & -> & Hu & Hn & Hv). destruct IN as [IN|[]]. injection IN as <-. intros INx.
    destruct (In_nth_error _ _ INx) as (j & J). destruct (nth_error (loaded (mg c)) j) as [e|] eqn:Je.
    2:{ apply nth_error_None in Je. assert (L : List.length (mstats (mg c')) = List.length (loaded (mg c))) by (rewrite <- (map_length cs_name), Hn; apply map_length).
        assert (j < List.length (mstats (mg c'))) by (apply nth_error_Some; congruence). lia. }
    destruct (Hv j e x Je J) as (_ & _ & -> & _). specialize (S _ Hu). rewrite Hr in S.
    destruct (S e (nth_error_In _ _ Je)) as (d & SD). unfold smp in SD. rewrite SD. intros X. apply app_eq_nil in X. destruct X. discriminate.
  - destruct D as (_ & _ & _ & [-> | ->]); [destruct IN|destruct IN as [IN|[]]; discriminate].
  - destruct D as (_ & -> & _). destruct IN.
  - destruct ps as [|p ps]; [destruct D as (_ & -> & _); destruct IN|]. destruct D as (_ & _ & -> & _). destruct IN as [IN|[]]; discriminate.
  - destruct ps as [|p ps]; [destruct D as (_ & -> & _); destruct IN|]. destruct D as (_ & _ & -> & _). destruct IN as [IN|[]]; discriminate.
  - destruct D as (_ & -> & _). destruct IN as [IN|[]]; discriminate.
Qed.
Lemma told_client c c' : client c c' -> told (mg c) -> told (mg c').
Proof.
  intros C TD ss x IN. destruct (cl_evs c c' C) as (evs & T & P). rewrite T in IN. apply in_app_or in IN. destruct IN as [IN|IN]; [now apply TD|].
  exfalso. destruct P as [(N & _)|[(-> & _)|(-> & _)]].
  - rewrite Forall_forall in N. destruct (N _ IN) as [X|(p & b & X)]; discriminate.
  - destruct IN as [IN|[]]; discriminate.
  - destruct IN as [IN|[]]; discriminate.
Qed.

Lemma live_samples c : live H c -> sampled c /\ told (mg c).
Proof.
  intros (m & ls & Hr & Hp & S & Ho). remember (quiet m) as c0 eqn:E0. induction S as [c|c ls c1 l c2 S IH E Hst]; subst.
  - split; [intros b _; exact Logic.I|]. intros ss x IN INx. destruct (C67_published_statistics H HP m ss x Hr IN INx) as (A & _). exact A.
  - pose proof (rosok_back H _ _ _ E Ho) as Hr1. destruct (IH eq_refl Hr1) as (A & B).
    assert (I1 : InvB c1). { apply (live_inv H Hpm Hpj). exists m, ls. auto. }
    destruct (step_cases H l c1 c2 I1 Hr1 E Ho) as [(a & b & -> & E')|Cl].
    + split; [eapply (sampled_rt H Hpm Hpj); eauto|eapply told_rt; eauto].
    + split; [eapply sampled_client; eauto|eapply told_client; eauto].
Qed.

(** In every execution, whatever clients do meanwhile: the times published for a controller are the longest, the average and the
    standard deviation (despite the field's name) of its update durations so far, of which there is at least one. *)
Theorem C90_published_times : forall (c : config) ss x, live H c -> In (EvPubMech ss) (trace (mg c)) -> In x ss ->
  (forall d, In d (cs_samples x) -> representable d) ->
  let times := map seconds (cs_samples x) in
  times <> [] /\ longest times (max_time x) /\ mean_time x = average times /\ variance_time x = deviation times.
Proof.
  intros c ss x L IN INx Rp times. destruct (live_samples c L) as (_ & TD). specialize (TD ss x IN INx).
  assert (NE : times <> []) by (unfold times; destruct (cs_samples x); [congruence|discriminate]).
  assert (EQ : map ntosec (cs_samples x) = times) by (apply map_ext; intros d; apply ntosec_seconds).
  assert (PN : (0 < INR (List.length times))%R) by (apply lt_0_INR; destruct times; [congruence|cbn; lia]).
  split; [exact NE|]. unfold max_time, mean_time, variance_time. rewrite accumulated_of, EQ. split; [|split].
  - split; [|intros y; apply acc_max_ge]. destruct (acc_max times) as [X|X]; [|exact X]. exfalso.
    destruct times as [|t0 times'] eqn:ET; [congruence|]. assert (IN0 : In t0 (t0 :: times')) by (left; reflexivity).
    assert (LB : (- (IZR 9007199254740991 * Raux.bpow Zaux.radix2 971) < t0)%R).
    { rewrite <- ET in IN0. unfold times in IN0. apply in_map_iff in IN0. destruct IN0 as (d & <- & D). apply seconds_above, Rp, D. }
    pose proof (acc_max_ge (t0 :: times') t0 IN0) as GE. rewrite X in GE. lra.
  - rewrite acc_sum, acc_count. cbn [ndiv nofZ num_R]. rewrite <- INR_IZR_INZ. reflexivity.
  - change (@nsqrt R trig_R) with sqrt. unfold deviation. f_equal. rewrite <- (acc_var times NE). field. lra.
Qed.

(** Under concurrency too every cycle adds exactly one sample for every controller of the list it took: none before the update
    loop, one each after it (in between, for those whose turn has been) ... *)
Theorem C90_one_sample_per_cycle : forall (c : config) b e, live H c -> used (mg c) = Some b -> In e (lists (mg c) b) ->
  let now_ := st_samples (co_stats (heap (mg c) (e_ptr e))) in
  let at_start := st_samples (co_stats (heap (snap c) (e_ptr e))) in
  match rt c with
  | RIdle | RGot _ => True
  | RBegin | RRestart _ | RRestarting _ => now_ = at_start
  | RUpdate _ => now_ = at_start \/ exists d, now_ = at_start ++ [d]
  | _ => exists d, now_ = at_start ++ [d]
  end.
Proof.
  intros c b e L Hu IN now_ at_start. destruct (live_samples c L) as (S & _). specialize (S b Hu).
  destruct (rt c) as [|y| |i|i|i| | |t| | |ps|ps|] eqn:Hr; auto; try (exact (S e IN)).
  pose proof (used_good c b (live_inv H Hpm Hpj c L) Hu) as G.
  destruct (In_nth_error (order_in_list (mg c) b) e) as (j & J).
  { eapply Permutation.Permutation_in; [apply Permutation.Permutation_sym, order_in_list_perm, G|exact IN]. }
  destruct (S j e J) as (r & R1 & R2). destruct r as [|d [|d2 r]].
  - left. unfold smp in R1. now rewrite app_nil_r in R1.
  - right. exists d. exact R1.
  - exfalso. cbn [List.length] in R2. destruct (Nat.ltb j i); lia.
Qed.
(** ... and no other step of anybody changes any controller's statistics. *)
Theorem C90_nothing_else_counts : forall (c : config) l c', live H c -> bstep H l c = Some (Ok c') -> rosok c' = true ->
  (forall a b, l = LRt a b -> ~ stale_start c) ->
  (forall a b i, ~ (l = LRt a b /\ rt c = RUpdate i)) ->
  forall p, p < next (mg c) -> co_stats (heap (mg c') p) = co_stats (heap (mg c) p).
Proof.
  intros c l c' L E Ho NS NU p LT. pose proof (live_inv H Hpm Hpj c L) as I.
  destruct (step_cases H l c c' I (live_ros H c L) E Ho) as [(a & b & -> & E')|Cl].
  - unfold do_rt in E'. destruct (rt_step H _ a b (rt c) (mg c)) as [[m' pc']| | |] eqn:E1; cbn [bind] in E'; try discriminate.
    injection E' as <-. cbn. eapply (rt_same H); [exact E1|]. intros i X. exfalso. exact (NU a b i (conj eq_refl X)).
  - now rewrite (cl_heap c c' Cl p LT).
Qed.
End Theorems.

(* ------------------------------------------------------------------ a concrete case *)
Local Open Scope string_scope.
(** every clock reading takes 5 ns, the update of controller number p 100 (p + 1) ns; statistics every 700 ns *)
Definition timedH : hooks exW :=
  mkHooks exW (fun w => (fst w, (fst w + 5, snd w)%Z)) (fun w => w) (fun w => w) snd (fun w => w) (fun w => w)
    (fun p k w => match k with CbUpdate => (fst w + 100 * (Z.of_nat p + 1), snd w)%Z | _ => w end) (fun _ w => w) (fun _ w => w) 700%Z 100%Z.
Definition timed1 : mgr exW := match exec timedH ex_ops ex0 with Some m => m | None => ex0 end.
(** a controller is being loaded while the control loop goes on *)
Definition time_run : list (label exW) :=
  LStart 0 true (PCall (CLoad exEnv "d") (fun _ => PEnd)) :: (rts 3 ++ ths 0 8 ++ rts 34 ++ ths 0 4 ++ rts 40).
Definition timed2 : config exW := reached timedH time_run timed1.
Definition entry_b : cstat :=
  match flat_map (fun e => match e with EvPubMech ss => [ss] | _ => [] end) (rev (trace (mg timed2))) with
  | (_ :: x :: _) :: _ => x
  | _ => new_cstat
  end.
Lemma entry_published : match flat_map (fun e => match e with EvPubMech ss => [ss] | _ => [] end) (rev (trace (mg timed2))) with
                        | (_ :: _ :: _) :: _ => true | _ => false end = true ->
  exists ss, In (EvPubMech ss) (trace (mg timed2)) /\ In entry_b ss.
Proof.
  unfold entry_b. generalize (trace (mg timed2)). intros l. set (f := fun e : event => match e with EvPubMech ss => [ss] | _ => [] end).
  destruct (flat_map f (rev l)) as [|[|x [|y r]] rest] eqn:Q; try discriminate. intros _. exists (x :: y :: r). split; [|right; left; reflexivity].
  apply in_rev. assert (Z : In (x :: y :: r) (flat_map f (rev l))) by (rewrite Q; left; reflexivity).
  apply in_flat_map in Z. destruct Z as (e & IN & Z). destruct e; try contradiction. destruct Z as [->|[]]. exact IN.
Qed.
Lemma time_deviation : deviation (map seconds [5; 5; 205; 205; 205; 205; 205; 205]%Z) = sqrt (7500 / 1000000000 / 1000000000).
Proof.
  unfold deviation. apply (f_equal sqrt). unfold average, seconds, total. cbn [map fold_right List.length]. simpl INR. field.
Qed.
Example C90_ex :
  live timedH timed2 /\ positive_periods timedH /\
  (exists ss, In (EvPubMech ss) (trace (mg timed2)) /\ In entry_b ss) /\
  cs_name entry_b = "b" /\ cs_samples entry_b = [5; 5; 205; 205; 205; 205; 205; 205]%Z /\
  loaded_names (mg timed2) = ["a"; "b"; "c"; "d"] /\
  max_time entry_b = seconds 205 /\ mean_time entry_b = seconds 155 /\ variance_time entry_b = sqrt (7500 / 1000000000 / 1000000000).
Proof.
  assert (L : live timedH timed2).
  { apply reached_live; [|vm_compute; reflexivity|vm_compute; reflexivity].
    apply exec_reachable with ex_ops ex0; [apply reach_init; repeat split|].
    unfold timed1. assert (X : match exec timedH ex_ops ex0 with Some _ => true | None => false end = true) by (vm_compute; reflexivity).
    destruct (exec timedH ex_ops ex0); [reflexivity|discriminate]. }
  assert (P : positive_periods timedH) by (split; reflexivity).
  assert (IN : exists ss, In (EvPubMech ss) (trace (mg timed2)) /\ In entry_b ss).
  { apply entry_published. vm_compute. reflexivity. }
  assert (SA : cs_samples entry_b = [5; 5; 205; 205; 205; 205; 205; 205]%Z) by (vm_compute; reflexivity).
  split; [exact L|]. split; [exact P|]. split; [exact IN|]. split; [vm_compute; reflexivity|]. split; [exact SA|]. split; [vm_compute; reflexivity|].
  destruct IN as (ss & I1 & I2). destruct (C90_published_times timedH P timed2 ss entry_b L I1 I2) as (_ & (A & B) & C & D).
  { rewrite SA. intros d X. cbn in X. unfold representable. intuition (subst; cbn; lia). }
  rewrite SA in *. split; [|split].
  - assert (U : (seconds 205 <= max_time entry_b)%R) by (apply B; cbn; tauto).
    revert A U. clear. generalize (@max_time R _ entry_b). intros x A U. cbn in A. unfold seconds in *. intuition lra.
  - rewrite C. unfold average, seconds, total. cbn. field.
  - rewrite D. exact time_deviation.
Qed.
