(** C71: the services against each other and against the realtime thread. *)
From Coq Require Import List String Arith Bool ZArith Lia Sorting.Permutation.
From Verif.Model Require Import Base Scheduler Controller Manager ManagerConc.
From Verif.Spec Require Import SchedulerSpec ManagerSpec ConcSpec LinSpec ServiceSpec.
From Verif.Proofs Require Import SchedulerProofs ManagerProofs ManagerInv ManagerOps ConcBase ConcInv ConcTrace
  ConcHist ConcCycle ConcProgress ConcLin ServiceProofs.
From Verif.Props Require Import SchedulerProps ManagerProps ConcProps.
Import ListNotations.
Open Scope string_scope.
Open Scope list_scope.

Section Theorems.
Context {W : Type} (H : hooks W).
Notation mgr := (mgr W).
Notation config := (config W).
Hypothesis Hpm : (0 < h_per_mech H)%Z.
Hypothesis Hpj : (0 < h_per_js H)%Z.

(** The plugin loader is replaced only while no controller is loaded, and only by a reload request. *)
Theorem C71_loader_replaced_only_when_empty :
  forall (m : mgr) ls c l c', served H m ls c -> bstep H l c = Some (Ok c') ->
  (forall a b, l = LRt a b -> ~ stale_start c) ->
  In EvNewLoader (new_events (mg c) (mg c')) ->
  loaded (mg c) = [] /\
  exists k f c0 l1 l2, l = LTh k /\ ls = l1 ++ l2 /\ steady H (quiet m) l1 c0 /\ executing H k (reload_service f) c0 l2 c.
Proof.
  intros m ls c l c' Sv E Hst Hin. destruct (served_sinv H Hpm Hpj m ls c Sv) as (S & I).
  destruct Sv as (_ & _ & _ & Ho & _).
  destruct (loader_step H Hpm Hpj l c c' I Ho E Hst Hin) as (k & srv & pr & -> & Hk).
  destruct (ok_prog H m ls c k srv _ S Hk) as (pr0 & c0 & l1 & l2 & E1 & S1 & X & V & HT).
  destruct (stage_loader _ _ _ _ _ V HT) as (Hl & f & ->). split; auto. exists k, f, c0, l1, l2. auto.
Qed.

(** The only request that can end the process is a reload with force_kill sent while controllers were
    loaded: no assert of list_controllers, and no other one of reload_libraries, fails under any
    interleaving of the services; nothing else goes wrong. *)
Theorem C71_only_forced_reload_aborts :
  forall (m : mgr) ls c l r, served H m ls c -> bstep H l c = Some r ->
  (forall a b, l = LRt a b -> ~ stale_start c) ->
  (exists c', r = Ok c') \/
  r = Abort /\ exists k c0 l1 l2, l = LTh k /\ ls = l1 ++ l2 /\ steady H (quiet m) l1 c0 /\
    executing H k (reload_service true) c0 l2 c /\ loaded (mg c0) <> [].
Proof.
  intros m ls c l r Sv E Hst. destruct (served_sinv H Hpm Hpj m ls c Sv) as (S & I).
  destruct Sv as (Hr & Hp & St & Ho & V).
  pose proof (bstep_inv H l c r Hpm Hpj I Ho E Hst) as X.
  destruct r as [c'| | |]; [left; eauto| | |].
  - contradiction.
  - right. split; auto. destruct X as (k & srv & -> & Hk).
    destruct (ok_prog H m ls c k srv _ S Hk) as (pr0 & c0 & l1 & l2 & E1 & S1 & Ex & Vp & HT).
    destruct (stage_abort _ _ _ _ Vp (co_cur _ (ib_core c I)) HT) as (-> & Hn). exists k, c0, l1, l2. auto 6.
  - contradiction.
Qed.

(** The answer of list_controllers: exactly the controllers loaded when the request got its turn (and
    still loaded), in execution order; each state was true at some moment while the request was being
    executed; and if no controller was started or stopped meanwhile all states are those of now. *)
Theorem C71_list_answer :
  forall (m : mgr) ls c k srv l pr, served H m ls c -> thr c k = TProg srv (PReply l pr) ->
  exists c0 l1 l2, ls = l1 ++ l2 /\ steady H (quiet m) l1 c0 /\ executing H k list_request c0 l2 c /\
    loaded (mg c0) = loaded (mg c) /\
    map fst l = names_in_order (mg c) /\ Permutation (map fst l) (loaded_names (mg c)) /\
    (forall n b, In (n, b) l -> exists c1 p, visited H c0 l2 c c1 /\ In (mkEntry n p) (loaded (mg c)) /\
       b = runningb (mg c1) p) /\
    (existsb is_switching (new_events (mg c0) (mg c)) = false ->
     forall n b, In (n, b) l -> forall p, In (mkEntry n p) (loaded (mg c)) -> b = runningb (mg c) p).
Proof.
  intros m ls c k srv l pr Sv Hk. destruct (served_sinv H Hpm Hpj m ls c Sv) as (S & I).
  destruct Sv as (Hr & Hp & St & Ho & V). assert (Im : Inv m) by (now apply (reachable_inv H)).
  destruct (ok_prog H m ls c k srv _ S Hk) as (pr0 & c0 & l1 & l2 & E1 & S1 & Ex & Vp & HT).
  destruct (stage_reply _ _ _ _ _ _ Vp HT) as (-> & -> & Ev & Fl & Em).
  assert (El : loaded (mg c0) = loaded (mg c)) by (symmetry; exact (f_equal fst Ev)).
  assert (Nm : map fst l = names_in_order (mg c)).
  { unfold names_in_order. rewrite <- Ev in Em. unfold lview in Em. cbn [snd] in Em.
    change (vnames (loaded (mg c), scheds (mg c) (cur (mg c)))) with (loaded_names (mg c)) in Em.
    clear -Em. set (ns := loaded_names (mg c)) in *. clearbody ns. revert l Em. induction (scheds (mg c) (cur (mg c))) as [|j s IH]; intros [|x l] Em; [reflexivity|discriminate Em|discriminate Em|].
    cbn [map] in Em. injection Em as E1 E2. cbn [map flat_map]. rewrite <- E1. cbn [app]. f_equal. auto. }
  exists c0, l1, l2. split; auto. split; auto. split; auto. split; auto. split; auto. split.
  { rewrite Nm. unfold names_in_order.
    pose proof (order_in_list_perm (mg c) (cur (mg c)) (co_cur _ (ib_core c I))) as P.
    apply (Permutation_map e_name) in P.
    match goal with |- Permutation ?x _ => assert (Ex' : x = map e_name (order_in_list (mg c) (cur (mg c)))) end.
    { clear. unfold order_in_list, loaded_names, loaded.
      induction (scheds (mg c) (cur (mg c))) as [|j s IH]; [reflexivity|]. cbn [flat_map]. rewrite map_app, <- IH. f_equal.
      rewrite nth_error_map. destruct (nth_error (lists (mg c) (cur (mg c))) j); reflexivity. }
    rewrite Ex'. exact P. }
  rewrite Forall_forall in Fl. split.
  - intros n b Hin. destruct (Fl _ Hin) as (c1 & p & Vi & Hp1 & Hb). exists c1, p. rewrite <- El. auto.
  - intros Hns n b Hin p Hpn. destruct (Fl _ Hin) as (c1 & p1 & (a1 & a2 & -> & V1 & V2) & Hp1 & Hb). cbn [fst snd] in *.
    rewrite El in Hp1.
    assert (p1 = p) as ->.
    { pose proof (gl_names _ _ (co_cur _ (ib_core c I))) as ND. fold (loaded (mg c)) in ND.
      clear -Hp1 Hpn ND. induction (loaded (mg c)) as [|e es IH]; [destruct Hpn|]. cbn in ND. inversion ND; subst.
      destruct Hp1 as [->|Hp1], Hpn as [X|Hpn]; auto.
      - now inversion X.
      - exfalso. apply H1. apply in_map_iff. exists (mkEntry n p). auto.
      - subst. exfalso. apply H1. apply in_map_iff. exists (mkEntry n p1). auto. }
    assert (Hr1 : rosok c1 = true). { clear -V2 Ho. induction V2; auto. apply IHV2. eapply rosok_back; eauto. }
    pose proof (steady_app H _ _ _ S1 _ _ V1) as S01.
    destruct (steady_states H Hpm Hpj m l1 c0 Im Hp S1 _ _ V1 Hr1) as (N1 & ev1 & T1 & _).
    destruct (steady_states H Hpm Hpj m _ c1 Im Hp S01 _ _ V2 Ho) as (N2 & ev2 & T2 & Q2).
    rewrite (new_events_app (mg c0) (mg c) (ev1 ++ ev2)) in Hns by (now rewrite T2, T1, app_assoc).
    rewrite existsb_app in Hns. apply orb_false_iff in Hns. destruct Hns as (_ & Hns).
    assert (Hlt : p < next (mg c1)).
    { assert (I0 : InvB c0). { eapply (steady_inv H m l1); eauto. clear -V1 Hr1. induction V1; auto. apply IHV1. eapply rosok_back; eauto. }
      pose proof (gl_lt _ _ (co_cur _ (ib_core c0 I0)) (mkEntry n p)) as X. fold (loaded (mg c0)) in X. rewrite El in X.
      specialize (X Hpn). cbn in X. lia. }
    rewrite Hb. unfold runningb. f_equal. symmetry. apply (Q2 Hns p Hlt).
Qed.
End Theorems.

(* ------------------------------------------------------------------ non-vacuity *)
Lemma reached_served ls m : reachable exH m -> please m = false ->
  match srun exH ls (quiet m) with Some c => rosok c | None => false end = true ->
  via_services ls -> served exH m ls (reached exH ls m).
Proof.
  intros Hr Hp E V. unfold reached. destruct (srun exH ls (quiet m)) as [c|] eqn:S; [|discriminate].
  repeat (split; auto). apply (srun_steady exH ls _ _ S (quiet m) []). constructor.
Qed.
Ltac via :=
  let k := fresh in let s := fresh in let p := fresh in let Hin := fresh in
  intros k s p Hin; cbn in Hin;
  repeat (destruct Hin as [Hin|Hin]; [first [discriminate Hin|inversion Hin; subst; split; [reflexivity|constructor]]|]);
  destruct Hin.

(** list_controllers in the middle of a cycle: "b" and "a" run, "c" does not; a load waits for its turn *)
Definition list_run : list (label exW) :=
  rts 3 ++ [LStart 0 true list_request; LStart 1 true (load_service exEnv "d")] ++ ths 0 4 ++ rts 1 ++ ths 0 5.
Example C71_ex_list : let c := reached exH list_run ex1 in
  served exH ex1 list_run c /\
  thr c 0 = TProg true (PReply [("c", false); ("a", true); ("b", true)] PEnd) /\
  bstep exH (LTh 1) c = None.
Proof.
  cbv zeta. split; [apply reached_served; [exact ex1_reachable|exact ex1_idle|vm_compute; reflexivity|]|].
  - via.
  - vm_compute. auto.
Qed.

(** The states can be those of a passing moment: the realtime thread restarts "b" after the motors came
    back and the answer says it is stopped. *)
Definition list_window_run : list (label exW) :=
  window_run ++ [LStart 0 true list_request] ++ ths 0 9 ++ rts 1.
Example C71_ex_window : let c := reached exH list_window_run ex1 in
  served exH ex1 list_window_run c /\
  thr c 0 = TProg true (PReply [("c", false); ("a", true); ("b", false)] PEnd) /\
  runningb (mg c) 1 = true /\ In (mkEntry "b" 1) (loaded (mg c)).
Proof.
  cbv zeta. split; [apply reached_served; [exact ex1_reachable|exact ex1_idle|vm_compute; reflexivity|]|].
  - via.
  - vm_compute. auto 6.
Qed.

(** reload_libraries with nothing loaded replaces the loader; with force_kill and one loaded controller
    the process ends *)
Definition reload_run : list (label exW) := [LStart 0 true (reload_service false)] ++ ths 0 2.
Example C71_ex_loader : let c := reached exH reload_run ex0 in
  served exH ex0 reload_run c /\
  match bstep exH (LTh 0) c with Some (Ok c') => new_events (mg c) (mg c') = [EvNewLoader] | _ => False end.
Proof.
  cbv zeta. split; [apply reached_served; [exact ex0_reachable|reflexivity|vm_compute; reflexivity|]|].
  - via.
  - vm_compute. reflexivity.
Qed.
Definition force_run : list (label exW) :=
  rts 12 ++ [LStart 0 true (load_service exEnv "a"); LStart 1 true (reload_service true)] ++ ths 0 8 ++ rts 12 ++
  ths 0 4 ++ ths 1 6 ++ rts 12 ++ ths 1 8 ++ rts 12 ++ ths 1 3.
Example C71_ex_abort : let c := reached exH force_run ex0 in
  served exH ex0 force_run c /\ bstep exH (LTh 1) c = Some Abort /\ loaded (mg c) = [].
Proof.
  cbv zeta. split; [apply reached_served; [exact ex0_reachable|reflexivity|vm_compute; reflexivity|]|].
  - via.
  - vm_compute. auto.
Qed.
