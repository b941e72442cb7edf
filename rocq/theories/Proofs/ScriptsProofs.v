(** What one service call, or one step of somebody else, does, as seen by a client script. *)
From Coq Require Import List String Arith Bool ZArith Lia Sorting.Permutation.
From Verif.Model Require Import Base Scheduler Controller Manager Scripts.
From Verif.Spec Require Import SchedulerSpec ManagerSpec ScriptsSpec.
From Verif.Proofs Require Import SchedulerProofs ManagerProofs ManagerInv ManagerOps.
From Verif.Props Require Import ManagerProps.
Import ListNotations.
Open Scope string_scope.
Open Scope list_scope.

Section S.
Context {W : Type} (H : hooks W) (HP : positive_periods H).
Notation mgr := (mgr W).

Lemma call_load env n (m : mgr) a m1 :
  reachable H m -> please m = false -> loadController H env n m = Ok (a, m1) ->
  reachable H m1 /\ please m1 = false /\
  (forall e, In e (loaded m) -> heap m1 (e_ptr e) = heap m (e_ptr e)) /\
  ((a = Returned true /\ ~ In n (loaded_names m) /\
      exists p, loaded m1 = loaded m ++ [mkEntry n p] /\ ~ running m1 p) \/
   (a <> Returned true /\ loaded m1 = loaded m)).
Proof.
  intros Hr Hp E. pose proof (inv_of H HP m Hr) as I.
  assert (Hr1 : reachable H m1).
  { eapply reach_step; [exact Hr|]. rewrite <- E. now constructor. }
  destruct (load_spec H env n m I Hp) as (a' & m' & E' & I' & Hp' & X).
  rewrite E in E'. inversion E'; subst a' m'. split; auto. split; auto.
  destruct a as [[|]|].
  - destruct X as (X1 & X2 & X3 & X4 & _). split; auto. left. split; auto. split; auto.
    exists (next m). split; [exact X2|]. unfold running. fold (state_of m1 (next m)). rewrite X4. discriminate.
  - destruct X as (X & _). split; [apply X|]. right. split; [discriminate|apply X].
  - destruct X as (X & _). split; [apply X|]. right. split; [discriminate|apply X].
Qed.

Lemma call_unload n (m : mgr) a m1 :
  reachable H m -> please m = false -> unloadController n m = Ok (a, m1) ->
  reachable H m1 /\ please m1 = false /\ heap m1 = heap m /\
  exists b, a = Returned b /\
    (b = true <-> (exists e, In e (loaded m) /\ e_name e = n /\ ~ running m (e_ptr e)) /\ ~ has_dependent m n) /\
    loaded m1 = if b then ManagerOps.others n (loaded m) else loaded m.
Proof.
  intros Hr Hp E. pose proof (inv_of H HP m Hr) as I.
  assert (Hr1 : reachable H m1).
  { eapply reach_step; [exact Hr|]. rewrite <- E. now constructor. }
  destruct (unload_spec n m I Hp) as (b & m' & E' & I' & Hp' & _ & _ & Hh & Hb & Hl).
  rewrite E in E'. inversion E'; subst a m'. split; auto. split; auto. split; auto. exists b.
  split; auto. split; auto. destruct b; [exact Hl|apply Hl].
Qed.

Lemma call_switch start stop s l1 l2 (m : mgr) a m1 :
  reachable H m -> please m = false -> switchController H start stop s l1 l2 m = Ok (a, m1) ->
  reachable H m1 /\ please m1 = false /\ loaded m1 = loaded m /\ scheds m1 (cur m1) = scheds m (cur m) /\
  (forall q, co_deps (heap m1 q) = co_deps (heap m q)) /\
  exists b, a = Returned b /\
    (b = false <-> s = STRICT /\ ~ (all_loaded m start /\ all_loaded m stop)) /\
    (b = false -> heap m1 = heap m) /\
    (b = true -> forall e, In e (loaded m) ->
       (running m1 (e_ptr e) <-> In (e_name e) start \/ (running m (e_ptr e) /\ ~ In (e_name e) stop))).
Proof.
  intros Hr Hp E. pose proof (inv_of H HP m Hr) as I. destruct HP as [Hp1 Hp2].
  pose proof E as E0. unfold switchController in E.
  destruct (switch_request_spec start stop s m I Hp)
    as [(Es & Hn & m' & Eb & I1 & Hsc & Hpl & Rs & Rp & Hh & Ht)|(Hn & m' & Eb & I1 & Hsc & Hpl & Rs & Rp & Hh & Ht & _)];
    rewrite Eb in E.
  - inversion E; subst. split.
    { eapply reach_step; [exact Hr|]. pose proof (step_switch H m start stop STRICT Hp) as X. rewrite Eb in X. exact X. }
    split; auto. split; [apply Hsc|]. split; [apply Hsc|]. split; [intros q; now rewrite Hh|].
    exists false. split; auto. split; [split; auto|]. split; auto. discriminate.
  - destruct (update_spec H l1 l2 m' I1 Hp1 Hp2) as (m2 & pub1 & pub2 & Eu & I2 & L & Sd & N & U & C & P & Q1 & Q2 & T & _ & _ & St & Dp).
    rewrite Eu in E. cbn [bind] in E. inversion E; subst.
    destruct (C15_running_set_after_switch H HP start stop s l1 l2 m m1 Hr Hp E0) as (X1 & X2 & X3 & _).
    split; auto. split; auto. split; auto. split; [rewrite Sd; apply Hsc|].
    split; [intros q; destruct (Dp q) as [_ ->]; now rewrite Hh|].
    exists true. split; auto. split; [split; [discriminate|intros X; elim Hn; exact X]|]. split; [discriminate|auto].
Qed.

Lemma alone_step o (m : mgr) a m1 :
  reachable H m -> please m = false -> step H m o (Ok (a, m1)) -> alone o m1 ->
  reachable H m1 /\ please m1 = false /\ loaded m1 = loaded m /\ scheds m1 (cur m1) = scheds m (cur m) /\
  (forall q, co_state (heap m1 q) = co_state (heap m q)) /\
  (forall q, co_deps (heap m1 q) = co_deps (heap m q)).
Proof.
  intros Hr Hp S A. pose proof (inv_of H HP m Hr) as I. destruct HP as [Hp1 Hp2].
  assert (Hr1 : reachable H m1) by (eapply reach_step; eauto). split; auto.
  inversion S as [? ? ? X|? ? X|? ? ? ? X|? l1 l2|? f|? Hpl E0]; subst; simpl in A; try contradiction.
  - destruct (update_spec H l1 l2 m I Hp1 Hp2) as (m2 & pub1 & pub2 & Eu & I2 & L & Sd & N & U & C & P & Q1 & Q2 & T & _ & _ & St & Dp).
    rewrite Eu in *. cbn [bind] in *. match goal with X : Ok _ = Ok _ |- _ => inversion X; subst end.
    split; auto. split; auto. split; auto. split; [|intros q; apply Dp].
    intros q. specialize (St q). rewrite Hp in St. exact St.
  - repeat split; auto.
Qed.

(* ------------------------------------------------------------------ sharing the manager *)
Definition pick (ns : list string) (e : entry) : bool := if in_dec string_dec (e_name e) ns then true else false.
Lemma named_in ns (m : mgr) e : In e (named ns m) <-> In e (loaded m) /\ In (e_name e) ns.
Proof.
  unfold named. rewrite filter_In. destruct (in_dec string_dec (e_name e) ns); intuition discriminate.
Qed.
Lemma named_others ns n l : ~ In n ns -> filter (pick ns) (ManagerOps.others n l) = filter (pick ns) l.
Proof.
  intros Hn. unfold ManagerOps.others. induction l as [|e l IH]; simpl; auto.
  destruct (String.eqb_spec (e_name e) n) as [E|E]; simpl.
  - rewrite IH. unfold pick at 2. destruct (in_dec string_dec (e_name e) ns); congruence.
  - now rewrite IH.
Qed.

Lemma other_step ns o (m : mgr) a m1 :
  reachable H m -> step H m o (Ok (a, m1)) -> keeps_off ns o ->
  reachable H m1 /\ named ns m1 = named ns m /\
  (forall e, In e (named ns m) -> running m1 (e_ptr e) ->
     running m (e_ptr e) \/ (please m = true /\ In (e_ptr e) (start_req m))) /\
  (please m1 = true -> forall e, In e (named ns m) -> In (e_ptr e) (start_req m1) ->
     please m = true /\ In (e_ptr e) (start_req m)).
Proof.
  intros Hr S A. pose proof (inv_of H HP m Hr) as I. pose proof HP as [Hp1 Hp2].
  assert (Hr1 : reachable H m1) by (eapply reach_step; eauto). split; auto.
  remember (Ok (a, m1)) as r eqn:E. destruct S; simpl in A.
  - match goal with X : please m = false |- _ => rename X into Hp end.
    destruct (call_load env name m a m1 Hr Hp E) as (_ & Hp' & Hh & X). split; [|split].
    + destruct X as [(_ & _ & p & Hl & _)|(_ & Hl)]; unfold named; rewrite Hl; auto.
      rewrite filter_app. simpl. destruct (in_dec string_dec name ns); [tauto|]. apply app_nil_r.
    + intros e He. apply named_in in He. unfold running. rewrite Hh by tauto. tauto.
    + congruence.
  - match goal with X : please m = false |- _ => rename X into Hp end.
    destruct (call_unload name m a m1 Hr Hp E) as (_ & Hp' & Hh & b & _ & _ & Hl). split; [|split].
    + unfold named. rewrite Hl. destruct b; auto. now apply named_others.
    + intros e He. unfold running. rewrite Hh. tauto.
    + congruence.
  - match goal with X : please m = false |- _ => rename X into Hp end.
    destruct (switch_request_spec start stop strictness m I Hp)
      as [(Es & Hn & m' & Eb & I1 & Hsc & Hpl & Rs & Rp & Hh & Ht)|(Hn & m' & Eb & I1 & Hsc & Hpl & Rs & Rp & Hh & Ht & _)];
      rewrite Eb in E; inversion E; subst; (split; [unfold named; now rewrite (proj1 Hsc)|split]).
    + intros e He. unfold running. rewrite Hh. tauto.
    + congruence.
    + intros e He. unfold running. rewrite Hh. tauto.
    + intros _ e He Hin. exfalso. rewrite Rs in Hin. apply (resolve_in m start _ I) in Hin.
      destruct Hin as (n & Hn1 & Hin). apply named_in in He. destruct He as [He1 He2].
      assert (e = mkEntry n (e_ptr e)) as Ee by (eapply nodup_ptrs_inj; [apply (inv_ptrs m I)|auto|auto|reflexivity]).
      apply (A n Hn1). rewrite Ee in He2. exact He2.
  - destruct (update_spec H l1 l2 m I Hp1 Hp2) as (m2 & pub1 & pub2 & Eu & I2 & L & Sd & N & U & C & P & Q1 & Q2 & T & _ & _ & St & Dp).
    rewrite Eu in E. cbn [bind] in E. inversion E; subst m2. split; [unfold named; now rewrite L|]. split; [|congruence].
    intros e He. unfold running. fold (state_of m1 (e_ptr e)) (state_of m (e_ptr e)). rewrite St.
    destruct (please m); auto. unfold switched_state.
    destruct (existsb (Nat.eqb (e_ptr e)) (start_req m)) eqn:Ex.
    + intros _. right. split; auto. apply existsb_exists in Ex. destruct Ex as (q & Hq & Eq).
      apply Nat.eqb_eq in Eq. now subst.
    + destruct (existsb (Nat.eqb (e_ptr e)) (stop_req m)); [discriminate|auto].
  - inversion E; subst. split; auto.
  - inversion E; subst. split; auto.
Qed.

Lemma nodup_right {A} (l l' : list A) : NoDup (l ++ l') -> NoDup l'.
Proof. induction l; simpl; auto. intros N. inversion N; auto. Qed.
Lemma nodup_map_filter {A B} (g : A -> B) f (l : list A) : NoDup (map g l) -> NoDup (map g (filter f l)).
Proof.
  induction l as [|x l IH]; simpl; auto. intros N. inversion N as [|? ? N1 N2]; subst. destruct (f x); simpl; auto.
  constructor; auto. intros Hin. apply N1. apply in_map_iff in Hin. destruct Hin as (y & <- & Hy).
  apply filter_In in Hy. apply in_map. tauto.
Qed.

(* ------------------------------------------------------------------ splitting a run at its calls *)
Section Split.
Variable others : op (W := W) -> mgr -> Prop.
Variable plugins : plugin_env -> Prop.
Variable asserts : bool.
Notation run := (run H others plugins asserts).

Inductive drift : mgr -> mgr -> Prop :=
| drift_refl m : drift m m
| drift_step m o a m1 m2 : step H m o (Ok (a, m1)) -> others o m1 -> drift m1 m2 -> drift m m2.

Lemma run_cases m c m' : run m c m' ->
  exists m0, drift m m0 /\
  match c with
  | Done => m0 = m' /\ m = m'
  | Load n k => exists env a m1, please m0 = false /\ plugins env /\ loadController H env n m0 = Ok (a, m1) /\ run m1 (k a) m'
  | Unload n k => exists a m1, please m0 = false /\ unloadController n m0 = Ok (a, m1) /\ run m1 (k a) m'
  | Switch start stop s k => exists l1 l2 a m1, please m0 = false /\ switchController H start stop s l1 l2 m0 = Ok (a, m1) /\
      run m1 (k a) m'
  | ListAll k => exists ans, please m0 = false /\ listControllers asserts m0 = Ok ans /\ run m0 (k ans) m'
  | Reload force k => exists l1 l2 ok m1, please m0 = false /\
      reloadControllerLibraries H asserts force l1 l2 m0 = Ok (ok, m1) /\ run m1 (k ok) m'
  end.
Proof.
  induction 1 as [m|m o a m1 c m' Hc S O Hrun (m0 & D & X)| | | | |]; try (eexists; split; [apply drift_refl|]; eauto 10; fail).
  exists m0. split; [econstructor; eauto|]. destruct c; auto. tauto.
Qed.

Lemma drift_reachable m m0 : reachable H m -> drift m m0 -> reachable H m0.
Proof. induction 2; auto. apply IHdrift. eapply reach_step; eauto. Qed.
End Split.

Lemma drift_respectful ns m m0 :
  reachable H m -> drift (respectful ns) m m0 -> 
  reachable H m0 /\ named ns m0 = named ns m /\ (no_outside_dependents ns m -> no_outside_dependents ns m0) /\
  (forall e, In e (named ns m) -> ~ running m (e_ptr e) -> (please m = true -> ~ In (e_ptr e) (start_req m)) ->
     ~ running m0 (e_ptr e) /\ (please m0 = true -> ~ In (e_ptr e) (start_req m0))).
Proof.
  intros Hr D. revert Hr. induction D as [m|m o a m1 m2 S [O1 O2] D IH]; intros Hr; [auto|].
  destruct (other_step ns o m a m1 Hr S O1) as (Hr1 & Hn1 & R1 & R2).
  destruct (IH Hr1) as (Hr2 & Hn2 & Hd & Hx). split; auto. split; [congruence|]. split; [auto|].
  intros e He Hnr Hnp. apply Hx.
  - now rewrite Hn1.
  - intros X. destruct (R1 e He X) as [Y|[Y1 Y2]]; auto. now apply Hnp.
  - intros X Y. destruct (R2 X e He Y) as [Z1 Z2]. now apply Hnp.
Qed.

Lemma drift_alone m m0 :
  reachable H m -> please m = false -> drift alone m m0 ->
  reachable H m0 /\ please m0 = false /\ loaded m0 = loaded m /\ scheds m0 (cur m0) = scheds m (cur m) /\
  (forall q, co_state (heap m0 q) = co_state (heap m q)) /\
  (forall q, co_deps (heap m0 q) = co_deps (heap m q)).
Proof.
  intros Hr Hp D. revert Hr Hp. induction D as [m|m o a m1 m2 S A D IH]; intros Hr Hp.
  - repeat split; auto.
  - destruct (alone_step o m a m1 Hr Hp S A) as (Hr1 & Hp1 & L1 & S1 & T1 & D1).
    destruct (IH Hr1 Hp1) as (Hr2 & Hp2 & L2 & S2 & T2 & D2).
    split; auto. split; auto. split; [congruence|]. split; [congruence|]. split; congruence.
Qed.

(** loading a controller that needs no other one always succeeds *)
Lemma stands_alone_loads env n (m : mgr) a m1 :
  reachable H m -> please m = false -> stands_alone env n -> ~ In n (loaded_names m) ->
  loadController H env n m = Ok (a, m1) -> a = Returned true.
Proof.
  intros Hr Hp (Hk & ty & pr & Hc & Hi) Hn E. pose proof (inv_of H HP m Hr) as I.
  destruct (proj2 (C09_load_succeeds_iff H HP env n m Hr Hp)) as (m' & E'); [|congruence].
  split; auto. split; auto. exists ty, pr, no_deps. split; auto. split; [apply Hi|].
  destruct (inv_sched m I) as (old & Es).
  pose proof (schedule_correct (specs (heap m) (loaded m)) old) as Hs. rewrite names_specs in Hs.
  specialize (Hs (inv_names m I)). rewrite Es in Hs. destruct Hs as (_ & _ & o & _ & _ & _ & [A1 A2] & _).
  exists (o ++ [n]). split.
  - unfold names. rewrite map_app. simpl. apply Permutation_app_tail. exact A1.
  - intros x y Hm. assert (Hm' : must_precede (specs (heap m) (loaded m)) x y).
    { destruct Hm as [(s & Hs & Hm)|(s & Hs & Hm)]; apply in_app_iff in Hs; destruct Hs as [Hs|[<-|[]]];
        [left|simpl in Hm; tauto|right|simpl in Hm; tauto]; eauto. }
    destruct (A2 x y Hm') as (i & j & Hij & Hx & Hy). exists i, j. split; auto.
    split; (rewrite nth_error_app1; [assumption|apply nth_error_Some; congruence]).
Qed.
End S.
