(** How one control cycle acts on the world, for arbitrary hooks. *)
From Coq Require Import List String Arith Bool ZArith Lia.
From Verif.Model Require Import Base Num Joint Hardware Transmission Scheduler Controller Manager Robot System.
From Verif.Spec Require Import SystemSpec.
Import ListNotations.

Section Steps.
Context {W : Type} (H : hooks W).
Notation mgr := (mgr W).

Lemma acts_trans a b w1 w2 w3 : acts H a w1 w2 -> acts H b w2 w3 -> acts H (a ++ b) w1 w3.
Proof. induction 1; intros A; [exact A|apply acts_now; auto|apply acts_cb; auto]. Qed.

(** [m'] comes from [m] by callbacks [cbs] and clock readings; nothing but callbacks is logged *)
Definition ran (cbs : list (ptr * callback)) (m m' : mgr) : Prop :=
  trace m' = trace m ++ cb_events cbs /\ acts H cbs (world m) (world m').

Lemma ran_nil (m m' : mgr) : trace m' = trace m -> world m' = world m -> ran [] m m'.
Proof. intros A B. split; [rewrite A; cbn; now rewrite app_nil_r|rewrite B; constructor]. Qed.
Lemma ran_trans a b m1 m2 m3 : ran a m1 m2 -> ran b m2 m3 -> ran (a ++ b) m1 m3.
Proof.
  intros [A1 A2] [B1 B2]. split; [|eapply acts_trans; eauto].
  rewrite B1, A1. unfold cb_events. rewrite map_app, app_assoc. reflexivity.
Qed.
Lemma ran_now (m : mgr) : ran [] m (snd (now H m)).
Proof.
  unfold now. destruct (h_now H (world m)) as [t w] eqn:E. cbn [snd]. split; [cbn; now rewrite app_nil_r|].
  cbn [world set_world]. apply acts_now. rewrite E. apply acts_nil.
Qed.
Lemma ran_call p k m : ran [(p, k)] m (call H p m k).
Proof. split; [reflexivity|]. apply acts_cb, acts_nil. Qed.
Lemma ran_calls p cbs : forall m, ran (map (fun k => (p, k)) cbs) m (calls H p cbs m).
Proof.
  induction cbs as [|k cbs IH]; intros m; [apply ran_nil; reflexivity|].
  cbn [map calls fold_left]. apply (ran_trans [(p, k)] _ m (call H p m k)); [apply ran_call|apply IH].
Qed.
Lemma ran_put cbs m0 m p s : ran cbs m0 m -> ran cbs m0 (put_state p s m).
Proof. intros [A B]. split; [exact A|exact B]. Qed.

(** callbacks other than update() *)
Definition no_update (cbs : list (ptr * callback)) : Prop := Forall (fun c => snd c <> CbUpdate) cbs.
Lemma no_update_app a b : no_update a -> no_update b -> no_update (a ++ b).
Proof. intros A B. apply Forall_app. auto. Qed.

Lemma ran_stop' p m b m' : stop_ctrl H p m = (b, m') -> exists cbs, ran cbs m m' /\ no_update cbs.
Proof.
  unfold stop_ctrl. destruct (stopRequest (state_of m p)) as [[b0 cbs] s] eqn:R. intros E. injection E as <- <-.
  eexists. split; [apply ran_put, ran_calls|]. unfold stopRequest in R. destruct (state_of m p); injection R as _ <- _; repeat constructor; discriminate.
Qed.
Lemma ran_start' p m b m' : start_ctrl H p m = (b, m') -> exists cbs, ran cbs m m' /\ no_update cbs.
Proof.
  unfold start_ctrl. destruct (startRequest (state_of m p)) as [[b0 cbs] s] eqn:R. intros E. injection E as <- <-.
  eexists. split; [apply ran_put, ran_calls|]. unfold startRequest in R. destruct (state_of m p); injection R as _ <- _; repeat constructor; discriminate.
Qed.
Lemma ran_stop p m b m' : stop_ctrl H p m = (b, m') -> exists cbs, ran cbs m m'.
Proof. intros E. destruct (ran_stop' _ _ _ _ E) as (cbs & A & _). eauto. Qed.
Lemma ran_start p m b m' : start_ctrl H p m = (b, m') -> exists cbs, ran cbs m m'.
Proof. intros E. destruct (ran_start' _ _ _ _ E) as (cbs & A & _). eauto. Qed.
Lemma ran_update p m : exists cbs, ran cbs m (update_ctrl H p m).
Proof. unfold update_ctrl. destruct (updateRequest (state_of m p)) as [cbs s]. eexists. apply ran_put, ran_calls. Qed.

Lemma ran_for_each f : (forall m i m', f m i = Ok m' -> exists cbs, ran cbs m m') ->
  forall is m m', for_each f is m = Ok m' -> exists cbs, ran cbs m m'.
Proof.
  intros F. induction is as [|i is IH]; intros m m' E; cbn [for_each] in E.
  - injection E as <-. exists []. apply ran_nil; reflexivity.
  - destruct (f m i) as [m1| | |] eqn:E1; cbn [bind] in E; try discriminate.
    destruct (F _ _ _ E1) as [c1 R1]. destruct (IH _ _ E) as [c2 R2]. eexists. eapply ran_trans; eauto.
Qed.

Lemma ran_restart m m' : rt_restart H m = Ok m' -> exists cbs, ran cbs m m'.
Proof.
  unfold rt_restart. destruct (rt_list m) as [l| | |]; cbn [bind]; try discriminate. intros E.
  destruct (if rt_must_restart H m then _ else _) as [m1| | |] eqn:E1; cbn [bind] in E; try discriminate. injection E as <-.
  assert (exists cbs, ran cbs m m1) as [cbs [A B]].
  { destruct (rt_must_restart H m); [|injection E1 as <-; exists []; apply ran_nil; reflexivity].
    revert E1. apply ran_for_each. clear. intros m i m'. unfold rt_restart_one.
    destruct (rt_nth m i) as [e| | |]; cbn [bind]; try discriminate.
    destruct (isRunning _); [|intros E; injection E as <-; exists []; apply ran_nil; reflexivity].
    destruct (stop_ctrl H (e_ptr e) m) as [b1 m1] eqn:E1. destruct (start_ctrl H (e_ptr e) m1) as [b2 m2] eqn:E2.
    intros E. injection E as <-. destruct (ran_stop _ _ _ _ E1) as [c1 R1]. destruct (ran_start _ _ _ _ E2) as [c2 R2].
    eexists. eapply ran_trans; eauto. }
  exists cbs. split; assumption.
Qed.

Lemma ran_update_all m m' : rt_update_all H m = Ok m' -> exists cbs, ran cbs m m'.
Proof.
  unfold rt_update_all. destruct (rt_list m) as [l| | |]; cbn [bind]; try discriminate.
  apply ran_for_each. clear. intros m i m'. unfold rt_update_one. destruct (rt_nth m i) as [e| | |]; cbn [bind]; try discriminate.
  pose proof (ran_now m) as R1. destruct (now H m) as [t0 m1]. cbn [snd] in R1.
  destruct (ran_update (e_ptr e) m1) as [c2 R2].
  pose proof (ran_now (update_ctrl H (e_ptr e) m1)) as R3. destruct (now H (update_ctrl H (e_ptr e) m1)) as [t1 m3]. cbn [snd] in R3.
  intros E. injection E as <-. exists c2.
  assert (A : ran c2 m m3).
  { rewrite <- (app_nil_l c2), <- (app_nil_r c2). eapply ran_trans; [exact R1|]. eapply ran_trans; [exact R2|exact R3]. }
  destruct A as [A B]. split; assumption.
Qed.


(** what a publication attempt does: [due t] at the time read *)
Definition attempt (lock : bool) (pub : Z -> W -> W) (last per last' : Z) (w w' : W) : Prop :=
  exists t w1, h_now H w = (t, w1) /\
    ((lock && (last + per <? t)%Z = false /\ w' = w1 /\ last' = last) \/
     (lock && (last + per <? t)%Z = true /\ catch_up (catch_up_fuel last t) last per t = Ok last' /\ acts H [] (pub t w1) w')).

Lemma mech_attempt lock m m' : publishMechanismStatistics H lock m = Ok m' ->
  attempt lock (h_pub_mech H) (last_mech m) (h_per_mech H) (last_mech m') (world m) (world m') /\
  last_js m' = last_js m /\ start_req m' = start_req m /\ stop_req m' = stop_req m /\ please m' = please m /\ exists r, trace m' = trace m ++ r.
Proof.
  unfold publishMechanismStatistics, now. destruct (h_now H (world m)) as [t w] eqn:N1. intros E. unfold mech_due in E.
  cbn [last_mech set_world] in E. destruct (last_mech m + h_per_mech H <? t)%Z eqn:D.
  2:{ injection E as <-. split; [|cbn; repeat split; exists []; now rewrite app_nil_r]. exists t, w. split; auto. left. rewrite D, andb_false_r. auto. }
  destruct lock.
  2:{ injection E as <-. split; [|cbn; repeat split; exists []; now rewrite app_nil_r]. exists t, w. split; auto. }
  unfold rt_fill_mech, now in E. cbn [last_mech set_world] in E.
  destruct (catch_up _ _ _ _) as [last| | |] eqn:C; cbn [bind] in E; try discriminate.
  destruct (rt_list _) as [l| | |]; cbn [bind] in E; try discriminate.
  destruct (fill_stats _ _ _ _ _) as [out| | |]; cbn [bind] in E; try discriminate.
  cbn [world on_world set_world set_last_mech set_mstats] in E.
  destruct (h_now H (h_pub_mech H t w)) as [t2 w2] eqn:N2. injection E as <-.
  split; [|cbn; repeat split; eexists; reflexivity]. exists t, w. split; auto. right. rewrite D. split; auto.
  cbn [last_mech log set_trace set_world set_mstats on_world set_last_mech world]. split; auto. apply acts_now. rewrite N2. apply acts_nil.
Qed.
Lemma js_attempt lock m m' : publishJointState H lock m = Ok m' ->
  attempt lock (h_pub_js H) (last_js m) (h_per_js H) (last_js m') (world m) (world m') /\
  last_mech m' = last_mech m /\ start_req m' = start_req m /\ stop_req m' = stop_req m /\ please m' = please m /\ exists r, trace m' = trace m ++ r.
Proof.
  unfold publishJointState, now. destruct (h_now H (world m)) as [t w] eqn:N1. intros E.
  cbn [last_js set_world] in E. destruct (last_js m + h_per_js H <? t)%Z eqn:D.
  2:{ injection E as <-. split; [|cbn; repeat split; exists []; now rewrite app_nil_r]. exists t, w. split; auto. left. rewrite D, andb_false_r. auto. }
  destruct lock.
  2:{ injection E as <-. split; [|cbn; repeat split; exists []; now rewrite app_nil_r]. exists t, w. split; auto. }
  destruct (catch_up _ _ _ _) as [last| | |] eqn:C; cbn [bind] in E; try discriminate.
  cbn [world on_world set_world set_last_js] in E.
  destruct (h_now H (h_pub_js H t w)) as [t2 w2] eqn:N2. injection E as <-.
  split; [|cbn; repeat split; eexists; reflexivity]. exists t, w. split; auto. right. rewrite D. split; auto.
  cbn [last_js log set_trace set_world on_world set_last_js world]. split; auto. apply acts_now. rewrite N2. apply acts_nil.
Qed.

Definition same_pub (m m' : mgr) : Prop := last_js m' = last_js m /\ last_mech m' = last_mech m.
Lemma calls_pub p cbs : forall m, same_pub m (calls H p cbs m).
Proof. induction cbs as [|k cbs IH]; intros m; [split; reflexivity|]. cbn [calls fold_left]. apply (IH (call H p m k)). Qed.
Lemma stop_pub p m : same_pub m (snd (stop_ctrl H p m)).
Proof. unfold stop_ctrl. destruct (stopRequest _) as [[b cbs] s]. cbn [snd]. apply (calls_pub p cbs m). Qed.
Lemma start_pub p m : same_pub m (snd (start_ctrl H p m)).
Proof. unfold start_ctrl. destruct (startRequest _) as [[b cbs] s]. cbn [snd]. apply (calls_pub p cbs m). Qed.
Lemma same_pub_trans a b c : same_pub a b -> same_pub b c -> same_pub a c.
Proof. intros [A B] [C D]. split; congruence. Qed.
Lemma for_each_pub f : (forall m i m', f m i = Ok m' -> same_pub m m') ->
  forall is m m', for_each f is m = Ok m' -> same_pub m m'.
Proof.
  intros F. induction is as [|i is IH]; intros m m' E; cbn [for_each] in E.
  - injection E as <-. split; reflexivity.
  - destruct (f m i) as [m1| | |] eqn:E1; cbn [bind] in E; try discriminate. eapply same_pub_trans; eauto.
Qed.
Lemma restart_pub m m' : rt_restart H m = Ok m' -> same_pub m m'.
Proof.
  unfold rt_restart. destruct (rt_list m) as [l| | |]; cbn [bind]; try discriminate. intros E.
  destruct (if rt_must_restart H m then _ else _) as [m1| | |] eqn:E1; cbn [bind] in E; try discriminate. injection E as <-.
  assert (A : same_pub m m1).
  { destruct (rt_must_restart H m); [|injection E1 as <-; split; reflexivity].
    revert E1. apply for_each_pub. clear. intros m i m'. unfold rt_restart_one.
    destruct (rt_nth m i) as [e| | |]; cbn [bind]; try discriminate.
    destruct (isRunning _); [|intros E; injection E as <-; split; reflexivity].
    pose proof (stop_pub (e_ptr e) m) as A. destruct (stop_ctrl H (e_ptr e) m) as [b1 m1].
    pose proof (start_pub (e_ptr e) m1) as B. destruct (start_ctrl H (e_ptr e) m1) as [b2 m2].
    intros E. injection E as <-. eapply same_pub_trans; eauto. }
  exact A.
Qed.
Lemma update_all_pub m m' : rt_update_all H m = Ok m' -> same_pub m m'.
Proof.
  unfold rt_update_all. destruct (rt_list m) as [l| | |]; cbn [bind]; try discriminate.
  apply for_each_pub. clear. intros m i m'. unfold rt_update_one, now. destruct (rt_nth m i) as [e| | |]; cbn [bind]; try discriminate.
  destruct (h_now H (world m)) as [t0 w0]. unfold update_ctrl. destruct (updateRequest _) as [cbs s].
  destruct (h_now H _) as [t1 w1]. intros E. injection E as <-. apply (calls_pub (e_ptr e) cbs (set_world w0 m)).
Qed.

Lemma switch_ran m : exists cbs, acts H cbs (world m) (world (rt_switch H m)) /\ same_pub m (rt_switch H m) /\
  (exists r, trace (rt_switch H m) = trace m ++ r) /\ no_update cbs.
Proof.
  unfold rt_switch. destruct (please m).
  2:{ exists []. split; [apply acts_nil|]. split; [split; reflexivity|split; [exists []; now rewrite app_nil_r|constructor]]. }
  assert (A : forall ps m, exists cbs, acts H cbs (world m) (world (fold_left (rt_stop_one H) ps m)) /\ same_pub m (fold_left (rt_stop_one H) ps m) /\
                            (exists r, trace (fold_left (rt_stop_one H) ps m) = trace m ++ r) /\ no_update cbs).
  { induction ps as [|p ps IH]; intros m0; [exists []; split; [apply acts_nil|]; split; [split; reflexivity|split; [exists []; now rewrite app_nil_r|constructor]]|].
    cbn [fold_left]. destruct (IH (rt_stop_one H m0 p)) as (c2 & A2 & B2 & (r & R2) & N2). rewrite R2. revert A2 B2. unfold rt_stop_one.
    pose proof (stop_pub p m0) as B1. destruct (stop_ctrl H p m0) as [b m1] eqn:E. cbn [snd] in B1. destruct (ran_stop' _ _ _ _ E) as (c1 & [TT A1] & N1).
    destruct b; intros A2 B2; exists (c1 ++ c2); (split; [eapply acts_trans; eauto|]); (split; [eapply same_pub_trans; [exact B1|exact B2]|]);
    (split; [|apply no_update_app; assumption]); cbn [trace log set_trace]; rewrite TT; [exists (cb_events c1 ++ r)|exists (cb_events c1 ++ [EvFatal] ++ r)]; rewrite <- ?app_assoc; reflexivity. }
  assert (B : forall ps m, exists cbs, acts H cbs (world m) (world (fold_left (rt_start_one H) ps m)) /\ same_pub m (fold_left (rt_start_one H) ps m) /\
                            (exists r, trace (fold_left (rt_start_one H) ps m) = trace m ++ r) /\ no_update cbs).
  { induction ps as [|p ps IH]; intros m0; [exists []; split; [apply acts_nil|]; split; [split; reflexivity|split; [exists []; now rewrite app_nil_r|constructor]]|].
    cbn [fold_left]. destruct (IH (rt_start_one H m0 p)) as (c2 & A2 & B2 & (r & R2) & N2). rewrite R2. revert A2 B2. unfold rt_start_one.
    pose proof (start_pub p m0) as B1. destruct (start_ctrl H p m0) as [b m1] eqn:E. cbn [snd] in B1. destruct (ran_start' _ _ _ _ E) as (c1 & [TT A1] & N1).
    destruct b; intros A2 B2; exists (c1 ++ c2); (split; [eapply acts_trans; eauto|]); (split; [eapply same_pub_trans; [exact B1|exact B2]|]);
    (split; [|apply no_update_app; assumption]); cbn [trace log set_trace]; rewrite TT; [exists (cb_events c1 ++ r)|exists (cb_events c1 ++ [EvFatal] ++ r)]; rewrite <- ?app_assoc; reflexivity. }
  destruct (A (stop_req m) m) as (c1 & A1 & P1 & (r1 & R1) & N1). set (m1 := fold_left (rt_stop_one H) (stop_req m) m) in *. clearbody m1.
  destruct (B (start_req m1) m1) as (c2 & A2 & P2 & (r2 & R2) & N2).
  exists (c1 ++ c2). split; [eapply acts_trans; [exact A1|exact A2]|]. split; [eapply same_pub_trans; [exact P1|exact P2]|].
  split; [|apply no_update_app; assumption].
  exists (r1 ++ r2 ++ [EvSwitchDone]). cbn [rt_switch_end trace log set_trace set_please set_stop_req set_start_req]. rewrite R2, R1, <- !app_assoc. reflexivity.
Qed.

(** One cycle: propagate and zero; callbacks; enforce and send; publication attempts; callbacks of the switch.  The events
    tell the same story. *)
Lemma update_world' l1 l2 m m' : update H l1 l2 m = Ok m' ->
  exists cbs wb we wm wj cbs' rest,
    acts H cbs (h_zero H (h_propagate H (snd (h_now H (world m))))) wb /\
    acts H [] (h_effort H (h_enforce H wb)) we /\
    attempt l1 (h_pub_mech H) (last_mech m) (h_per_mech H) (last_mech m') we wm /\
    attempt l2 (h_pub_js H) (last_js m) (h_per_js H) (last_js m') wm wj /\
    acts H cbs' wj (world m') /\
    trace m' = trace m ++ [EvPropagate; EvZero] ++ cb_events cbs ++ [EvEnforce; EvEffort] ++ rest /\ no_update cbs'.
Proof.
  unfold update. intros E.
  set (m0 := rt_use (cur m) m) in *. assert (W0 : world m0 = world m) by reflexivity. assert (T0 : trace m0 = trace m) by reflexivity.
  assert (P0 : same_pub m m0) by (split; reflexivity). clearbody m0.
  assert (PRE : exists w, world (rt_pre H m0) = w /\ acts H [] (h_zero H (h_propagate H (snd (h_now H (world m))))) w /\
                          trace (rt_pre H m0) = trace m ++ [EvPropagate; EvZero] /\ same_pub m0 (rt_pre H m0)).
  { unfold rt_pre, now. rewrite W0. destruct (h_now H (world m)) as [t w] eqn:N1. cbn [snd].
    cbn [world on_world set_world log set_trace trace].
    destruct (h_now H (h_zero H (h_propagate H w))) as [t1 w1] eqn:N2. cbn [world set_world trace log set_trace].
    exists w1. split; [reflexivity|]. split; [apply acts_now; rewrite N2; apply acts_nil|]. split; [|split; reflexivity].
    cbn [trace on_world set_world log set_trace]. rewrite T0, <- app_assoc. reflexivity. }
  destruct PRE as (w & Ew & PA & PT & PP). subst w.
  destruct (rt_restart H (rt_pre H m0)) as [m1| | |] eqn:E1; cbn [bind] in E; try discriminate.
  destruct (rt_update_all H m1) as [m2| | |] eqn:E2; cbn [bind] in E; try discriminate.
  destruct (publishMechanismStatistics H l1 (rt_post H m2)) as [m3| | |] eqn:E3; cbn [bind] in E; try discriminate.
  destruct (publishJointState H l2 m3) as [m4| | |] eqn:E4; cbn [bind] in E; try discriminate. injection E as <-.
  destruct (ran_restart _ _ E1) as [c1 [T1 A1]]. destruct (ran_update_all _ _ E2) as [c2 [T2 A2]].
  pose proof (restart_pub _ _ E1) as P1. pose proof (update_all_pub _ _ E2) as P2.
  assert (POST : exists wb, acts H [] (world m2) wb /\ acts H [] (h_effort H (h_enforce H wb)) (world (rt_post H m2)) /\
                            trace (rt_post H m2) = trace m2 ++ [EvEnforce; EvEffort] /\ same_pub m2 (rt_post H m2)).
  { unfold rt_post, rt_enforce, rt_send, now. destruct (h_now H (world m2)) as [t w] eqn:N1. cbn [world on_world set_world log set_trace trace].
    destruct (h_now H (h_effort H (h_enforce H w))) as [t1 w1] eqn:N2. cbn [world set_world trace log set_trace].
    exists w. split; [apply acts_now; rewrite N1; apply acts_nil|]. split; [apply acts_now; rewrite N2; apply acts_nil|]. split; [|split; reflexivity].
    cbn [trace on_world set_world log set_trace]. rewrite <- app_assoc. reflexivity. }
  destruct POST as (wb & B1 & B2 & B3 & P3).
  pose proof (same_pub_trans _ _ _ P0 (same_pub_trans _ _ _ PP (same_pub_trans _ _ _ P1 (same_pub_trans _ _ _ P2 P3)))) as [LJ LM].
  destruct (mech_attempt _ _ _ E3) as (M & Lj3 & _ & _ & _ & r1 & R1).
  destruct (js_attempt _ _ _ E4) as (J & Lm4 & _ & _ & _ & r2 & R2).
  destruct (switch_ran m4) as (c3 & A3 & [Lj5 Lm5] & (r3 & R3) & N3).
  exists (c1 ++ c2), wb, (world (rt_post H m2)), (world m3), (world m4), c3, (r1 ++ r2 ++ r3).
  split; [|split; [exact B2|split; [|split; [|split; [exact A3|split; [|exact N3]]]]]].
  - rewrite <- (app_nil_l (c1 ++ c2)), <- (app_nil_r (c1 ++ c2)). eapply acts_trans; [exact PA|].
    eapply acts_trans; [eapply acts_trans; [exact A1|exact A2]|exact B1].
  - rewrite Lm5, Lm4, <- LM. exact M.
  - rewrite Lj5. rewrite Lj3, LJ in J. exact J.
  - rewrite R3, R2, R1, B3, T2, T1, PT. unfold cb_events. rewrite map_app. rewrite <- !app_assoc. cbn [app]. reflexivity.
Qed.

Lemma update_world l1 l2 m m' : update H l1 l2 m = Ok m' ->
  exists cbs wb we wm wj cbs' rest,
    acts H cbs (h_zero H (h_propagate H (snd (h_now H (world m))))) wb /\
    acts H [] (h_effort H (h_enforce H wb)) we /\
    attempt l1 (h_pub_mech H) (last_mech m) (h_per_mech H) (last_mech m') we wm /\
    attempt l2 (h_pub_js H) (last_js m) (h_per_js H) (last_js m') wm wj /\
    acts H cbs' wj (world m') /\
    trace m' = trace m ++ [EvPropagate; EvZero] ++ cb_events cbs ++ [EvEnforce; EvEffort] ++ rest.
Proof.
  intros E. destruct (update_world' l1 l2 m m' E) as (cbs & wb & we & wm & wj & cbs' & rest & A & B & C & D & F & G' & _).
  exists cbs, wb, we, wm, wj, cbs', rest. auto 8.
Qed.

(** the other operations only run callbacks *)
Lemma service_world' m o a m' : step H m o (Ok (a, m')) ->
  match o with
  | OpUpdate l1 l2 => update H l1 l2 m = Ok m'
  | OpEnv f => world m' = f (world m) /\ same_pub m m'
  | _ => (exists cbs, acts H cbs (world m) (world m') /\ no_update cbs) /\ same_pub m m'
  end.
Proof.
  intros S. remember (Ok (a, m')) as r eqn:E. destruct S as [m env name P|m name P|m st sp k P|m l1 l2|m f|m P HL].
  - unfold loadController in E.
    assert (X : forall m2, (load_body H env name m = Rejected m2 \/ load_body H env name m = Thrown m2 \/ load_body H env name m = Ready m2) ->
                (exists cbs, acts H cbs (world m) (world m2) /\ no_update cbs) /\ same_pub m m2).
    { intros m2. unfold load_body.
      repeat match goal with |- context [if ?c then _ else _] => destruct c end;
      try (intros [K|[K|K]]; try discriminate; injection K as <-; split; [exists []; split; [apply acts_nil|constructor]|split; reflexivity]).
      destruct (construct env name) as [[[ty pr]|]|];
      try (intros [K|[K|K]]; try discriminate; injection K as <-; split; [exists []; split; [apply acts_nil|constructor]|split; reflexivity]).
      destruct (initRequest _ _ _ _) as [[[ir cbs] s] d] eqn:IR.
      assert (NU : forall p : ptr, no_update (map (fun k => (p, k)) cbs)).
      { intros p. unfold initRequest in IR. cbn [co_state] in IR. destruct (run_init _ pr no_deps) as [[[]|] d']; injection IR as _ <- _ _; repeat constructor; discriminate. }
      set (m3 := set_next _ _). assert (W3 : world m3 = world m) by reflexivity. assert (P3 : same_pub m m3) by (split; reflexivity). clearbody m3.
      pose proof (ran_calls (next (set_lists (upd (lists m) (free_list m) (lists m (cur m))) m)) cbs m3) as [_ A].
      pose proof (calls_pub (next (set_lists (upd (lists m) (free_list m) (lists m (cur m))) m)) cbs m3) as B.
      rewrite W3 in A. pose proof (same_pub_trans _ _ _ P3 B) as C.
      assert (D : forall m4 : mgr, world m4 = world (calls H (next (set_lists (upd (lists m) (free_list m) (lists m (cur m))) m)) cbs m3) ->
                  same_pub (calls H (next (set_lists (upd (lists m) (free_list m) (lists m (cur m))) m)) cbs m3) m4 ->
                  (exists cbs0, acts H cbs0 (world m) (world m4) /\ no_update cbs0) /\ same_pub m m4).
      { intros m4 W4 Q4. split; [eexists; rewrite W4; split; [exact A|apply NU]|]. eapply same_pub_trans; eauto. }
      destruct ir as [[]|];
      try (intros [K|[K|K]]; try discriminate; injection K as <-; apply D; [reflexivity|split; reflexivity]).
      destruct (scheduleControllers _ _); intros [K|[K|K]]; try discriminate; injection K as <-; apply D; try reflexivity; split; reflexivity. }
    destruct (load_body H env name m) as [m2|m2|m2|]; try discriminate; injection E as <- <-.
    + apply X; auto.
    + destruct (X m2 ltac:(auto)) as [A B]. split; [exact A|]. unfold commit, clear_former, rt_moved_on, flip, resize_stats. destruct B. split; assumption.
    + apply X; auto.
  - unfold unloadController in E.
    assert (X : forall m2, (unload_body name m = Rejected m2 \/ unload_body name m = Thrown m2 \/ unload_body name m = Ready m2) ->
                world m2 = world m /\ same_pub m m2).
    { intros m2. unfold unload_body.
      destruct (existsb _ _); [intros [K|[K|K]]; try discriminate; injection K as <-; split; [reflexivity|split; reflexivity]|].
      destruct (transfer _ _ _) as [[[] to]|];
      try (intros [K|[K|K]]; try discriminate; injection K as <-; split; [reflexivity|split; reflexivity]).
      destruct (scheduleControllers _ _); intros [K|[K|K]]; try discriminate; injection K as <-; (split; [reflexivity|split; reflexivity]). }
    destruct (unload_body name m) as [m2|m2|m2|]; try discriminate; injection E as <- <-;
      destruct (X m2 ltac:(auto)) as [A B]; (split; [exists []|]).
    + rewrite A. split; [apply acts_nil|constructor]. + exact B.
    + change (world (commit m2)) with (world m2). rewrite A. split; [apply acts_nil|constructor]. + destruct B. split; assumption.
    + rewrite A. split; [apply acts_nil|constructor]. + exact B.
  -
    assert (X : forall m2, (switch_body st sp k m = Rejected m2 \/ switch_body st sp k m = Thrown m2 \/ switch_body st sp k m = Ready m2) ->
                world m2 = world m /\ same_pub m m2).
    { intros m2. unfold switch_body. cbv zeta.
      destruct (collect m _ sp) as [ps|]; [|intros [K|[K|K]]; try discriminate; injection K as <-; split; [reflexivity|split; reflexivity]].
      destruct (collect _ _ st) as [qs|]; intros [K|[K|K]]; try discriminate; injection K as <-; split; try reflexivity; split; reflexivity. }
    destruct (switch_body st sp k m) as [m2|m2|m2|]; try discriminate; injection E as <- <-;
      destruct (X m2 ltac:(auto)) as [A B]; (split; [exists []; rewrite A; split; [apply acts_nil|constructor]|exact B]).
  - destruct (update H l1 l2 m) as [m1| | |]; cbn [bind] in E; try discriminate. injection E as _ <-. reflexivity.
  - injection E as _ <-. split; [reflexivity|split; reflexivity].
  - injection E as _ <-. split; [exists []; split; [apply acts_nil|constructor]|split; reflexivity].
Qed.
Lemma service_world m o a m' : step H m o (Ok (a, m')) ->
  match o with
  | OpUpdate l1 l2 => update H l1 l2 m = Ok m'
  | OpEnv f => world m' = f (world m) /\ same_pub m m'
  | _ => (exists cbs, acts H cbs (world m) (world m')) /\ same_pub m m'
  end.
Proof.
  intros S. pose proof (service_world' m o a m' S) as E. destruct o; auto; destruct E as [(cbs & A & _) B]; eauto.
Qed.
End Steps.
