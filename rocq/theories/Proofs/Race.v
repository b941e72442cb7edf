(** Half-done modifications are invisible to the other threads (C87). *)
From Coq Require Import List String Arith Bool ZArith Lia.
From Verif.Model Require Import Base Scheduler Controller Manager ManagerConc.
From Verif.Spec Require Import ManagerSpec ConcSpec RaceSpec.
From Verif.Proofs Require Import SchedulerProofs ManagerProofs ManagerInv ManagerOps ConcBase ConcInv.
Import ListNotations.

Section Race.
Context {W : Type} (H : hooks W).
Notation mgr := (mgr W).
Notation config := (config W).

(** A change of fields the control loop does not look at outside the sections concerned. *)
Record transparent (G : mgr -> mgr) : Prop := {
  tp_world : forall m, world (G m) = world m;
  tp_heap : forall m, heap (G m) = heap m;
  tp_cur : forall m, cur (G m) = cur m;
  tp_used : forall m, used (G m) = used m;
  tp_please : forall m, please (G m) = please m;
  tp_prev : forall m, prev_halted (G m) = prev_halted m;
  tp_lm : forall m, last_mech (G m) = last_mech m;
  tp_lj : forall m, last_js (G m) = last_js m;
  tp_trace : forall m, trace (G m) = trace m;
  tp_set_world : forall x m, G (set_world x m) = set_world x (G m);
  tp_set_heap : forall x m, G (set_heap x m) = set_heap x (G m);
  tp_set_trace : forall x m, G (set_trace x m) = set_trace x (G m);
  tp_set_used : forall x m, G (set_used x m) = set_used x (G m);
  tp_set_prev : forall x m, G (set_prev_halted x m) = set_prev_halted x (G m);
  tp_set_lm : forall x m, G (set_last_mech x m) = set_last_mech x (G m);
  tp_set_lj : forall x m, G (set_last_js x m) = set_last_js x (G m) }.

Definition on_ok {A B} (f : A -> B) (r : res A) : res B := match r with Ok x => Ok (f x) | UB => UB | Abort => Abort | Hang => Hang end.

Section Blind.
Variable G : mgr -> mgr.
Hypothesis TP : transparent G.

Lemma g_log e m : log e (G m) = G (log e m).
Proof. unfold log. rewrite (tp_trace G TP), (tp_set_trace G TP). reflexivity. Qed.
Lemma g_world f m : on_world f (G m) = G (on_world f m).
Proof. unfold on_world. rewrite (tp_world G TP), (tp_set_world G TP). reflexivity. Qed.
Lemma g_now m : now H (G m) = (fst (now H m), G (snd (now H m))).
Proof. unfold now. rewrite (tp_world G TP). destruct (h_now H (world m)). cbn. rewrite (tp_set_world G TP). reflexivity. Qed.
Lemma g_state m p : state_of (G m) p = state_of m p.
Proof. unfold state_of. rewrite (tp_heap G TP). reflexivity. Qed.
Lemma g_put p s m : put_state p s (G m) = G (put_state p s m).
Proof. unfold put_state. rewrite (tp_heap G TP), (tp_set_heap G TP). reflexivity. Qed.
Lemma g_call p m cb : Manager.call H p (G m) cb = G (Manager.call H p m cb).
Proof. unfold Manager.call. rewrite g_log, g_world. reflexivity. Qed.
Lemma g_calls p cbs : forall m, calls H p cbs (G m) = G (calls H p cbs m).
Proof. unfold calls. induction cbs as [|cb cbs IH]; intros m; [reflexivity|]. cbn [fold_left]. rewrite g_call. apply IH. Qed.
Lemma g_start p m : start_ctrl H p (G m) = (fst (start_ctrl H p m), G (snd (start_ctrl H p m))).
Proof. unfold start_ctrl. rewrite g_state. destruct (startRequest (state_of m p)) as [[b cbs] s]. cbn. rewrite g_calls, g_put. reflexivity. Qed.
Lemma g_stop p m : stop_ctrl H p (G m) = (fst (stop_ctrl H p m), G (snd (stop_ctrl H p m))).
Proof. unfold stop_ctrl. rewrite g_state. destruct (stopRequest (state_of m p)) as [[b cbs] s]. cbn. rewrite g_calls, g_put. reflexivity. Qed.
Lemma g_update p m : update_ctrl H p (G m) = G (update_ctrl H p m).
Proof. unfold update_ctrl. rewrite g_state. destruct (updateRequest (state_of m p)) as [cbs s]. cbn. rewrite g_calls, g_put. reflexivity. Qed.
Lemma g_pre m : rt_pre H (G m) = G (rt_pre H m).
Proof.
  unfold rt_pre. rewrite g_now. destruct (now H m) as [t1 m1]. cbn [fst snd]. rewrite !g_log, !g_world, !g_log, !g_world, g_now.
  destruct (now H _) as [t2 m2]. reflexivity.
Qed.
Lemma g_must m : rt_must_restart H (G m) = rt_must_restart H m.
Proof. unfold rt_must_restart. rewrite (tp_world G TP), (tp_prev G TP). reflexivity. Qed.
Lemma g_enforce m : rt_enforce H (G m) = G (rt_enforce H m).
Proof. unfold rt_enforce. rewrite g_now. destruct (now H m) as [t1 m1]. cbn [fst snd]. rewrite g_log, g_world. reflexivity. Qed.
Lemma g_send m : rt_send H (G m) = G (rt_send H m).
Proof. unfold rt_send. rewrite g_log, g_world, g_now. destruct (now H _) as [t1 m1]. reflexivity. Qed.
Lemma g_js lock m : publishJointState H lock (G m) = on_ok G (publishJointState H lock m).
Proof.
  unfold publishJointState. rewrite g_now. destruct (now H m) as [t m1]. cbn [fst snd]. rewrite (tp_lj G TP). destruct (_ <? t)%Z; [|reflexivity].
  destruct lock; [|reflexivity]. destruct (catch_up _ _ _ _) as [x| | |]; cbn [bind on_ok]; try reflexivity.
  rewrite <- (tp_set_lj G TP), g_world, g_now. destruct (now H _) as [t2 m2]. cbn [fst snd on_ok]. rewrite g_log. reflexivity.
Qed.
Lemma g_due t m : mech_due H t (G m) = mech_due H t m.
Proof. unfold mech_due. rewrite (tp_lm G TP). reflexivity. Qed.

(** the sections that look at the lists, at the message, at the requests *)
Definition reads_list (pc : rpc) : bool := match pc with RRestart _ | RRestarting _ | RUpdate _ | RFill _ => true | _ => false end.
Definition list_kept (m : mgr) : Prop := forall u, used m = Some u -> lists (G m) u = lists m u /\ scheds (G m) u = scheds m u.
Definition message_kept : Prop := (forall m, mstats (G m) = mstats m) /\ forall x m, G (set_mstats x m) = set_mstats x (G m).
Definition requests_kept : Prop := (forall m, start_req (G m) = start_req m) /\ (forall m, stop_req (G m) = stop_req m) /\
  forall m, rt_switch_end (G m) = G (rt_switch_end m).

Lemma g_list m : list_kept m -> rt_list (G m) = rt_list m.
Proof. intros K. unfold rt_list. rewrite (tp_used G TP). destruct (used m) as [u|] eqn:E; [|reflexivity]. f_equal. apply K, E. Qed.
Lemma g_nth m i : list_kept m -> rt_nth (G m) i = rt_nth m i.
Proof.
  intros K. unfold rt_nth. rewrite (g_list m K). unfold rt_sched. rewrite (tp_used G TP). destruct (used m) as [u|] eqn:E; [|reflexivity].
  destruct (K u E) as (_ & ->). reflexivity.
Qed.
Lemma g_update_one m i : list_kept m -> rt_update_one H (G m) i = on_ok G (rt_update_one H m i).
Proof.
  intros K. unfold rt_update_one. rewrite (g_nth m i K). destruct (rt_nth m i) as [e| | |]; cbn [bind on_ok]; try reflexivity.
  rewrite g_now. destruct (now H m) as [t0 m0]. cbn [fst snd]. rewrite g_update, g_now. destruct (now H _) as [t1 m1]. cbn [fst snd on_ok].
  rewrite (tp_heap G TP), (tp_set_heap G TP). reflexivity.
Qed.
Lemma fill_heap (m1 m2 : mgr) t : heap m1 = heap m2 -> forall l i out, fill_stats m1 t l i out = fill_stats m2 t l i out.
Proof.
  intros E. induction l as [|e l IH]; intros i out; [reflexivity|]. cbn [fill_stats]. rewrite E. destruct (vget out i) as [o| | |]; cbn [bind]; try reflexivity.
  destruct (vset out i _) as [o'| | |]; cbn [bind]; auto.
Qed.
Lemma g_fill t m : list_kept m -> message_kept -> rt_fill_mech H t (G m) = on_ok G (rt_fill_mech H t m).
Proof.
  intros K (M1 & M2). unfold rt_fill_mech. rewrite (tp_lm G TP). destruct (catch_up _ _ _ _) as [x| | |]; cbn [bind on_ok]; try reflexivity.
  rewrite <- (tp_set_lm G TP), g_world. set (m1 := on_world (h_pub_mech H t) (set_last_mech x m)).
  assert (K1 : list_kept m1).
  { intros u E. assert (X : G m1 = set_world (h_pub_mech H t (world m)) (set_last_mech x (G m))).
    { unfold m1, on_world. rewrite (tp_set_world G TP), (tp_set_lm G TP). reflexivity. }
    rewrite X. exact (K u E). }
  rewrite (g_list m1 K1). destruct (rt_list m1) as [l| | |]; cbn [bind on_ok]; try reflexivity.
  rewrite M1, (fill_heap (G m1) m1 t (tp_heap G TP m1)). destruct (fill_stats m1 t l 0 (mstats m1)) as [out| | |]; cbn [bind on_ok]; try reflexivity.
  rewrite <- M2, g_now. destruct (now H _) as [t2 m2]. cbn [fst snd on_ok]. rewrite g_log. reflexivity.
Qed.

Definition rt_after (r : mgr * rpc) : mgr * rpc := (G (fst r), snd r).
Lemma rt_blind free a b pc m :
  (reads_list pc = true -> list_kept m) -> (forall t, pc = RFill t -> message_kept) ->
  (please m = true \/ (exists ps, pc = RStop ps) \/ pc = REnd -> requests_kept) ->
  rt_step H free a b pc (G m) = on_ok rt_after (rt_step H free a b pc m).
Proof.
  intros KL KM KR. destruct pc as [|x| |i|i|i| | |t| | |ps|ps|]; cbn [rt_step].
  - cbn. rewrite (tp_cur G TP). reflexivity.
  - cbn. unfold rt_use, rt_after. cbn. rewrite (tp_set_used G TP). reflexivity.
  - rewrite g_pre, g_must. destruct (rt_must_restart H (rt_pre H m)); [reflexivity|]. unfold rt_after. cbn [on_ok fst snd]. rewrite (tp_set_prev G TP), (tp_world G TP). reflexivity.
  - rewrite (g_list m (KL eq_refl)). destruct (rt_list m) as [l| | |]; cbn [bind on_ok]; try reflexivity. destruct (Nat.ltb i (List.length l)).
    + rewrite (g_nth m i (KL eq_refl)). destruct (rt_nth m i) as [e| | |]; cbn [bind on_ok]; try reflexivity. rewrite g_state.
      destruct (isRunning _); [|reflexivity]. rewrite g_stop. destruct (stop_ctrl H (e_ptr e) m). reflexivity.
    + unfold rt_after. cbn [on_ok fst snd]. rewrite (tp_set_prev G TP), (tp_world G TP). reflexivity.
  - rewrite (g_nth m i (KL eq_refl)). destruct (rt_nth m i) as [e| | |]; cbn [bind on_ok]; try reflexivity. rewrite g_start. destruct (start_ctrl H (e_ptr e) m). reflexivity.
  - rewrite (g_list m (KL eq_refl)). destruct (rt_list m) as [l| | |]; cbn [bind on_ok]; try reflexivity. destruct (Nat.ltb i (List.length l)).
    + rewrite (g_update_one m i (KL eq_refl)). destruct (rt_update_one H m i) as [m1| | |]; reflexivity.
    + cbn [on_ok]. rewrite g_enforce. reflexivity.
  - cbn [on_ok]. rewrite g_send. reflexivity.
  - rewrite g_now. destruct (now H m) as [t m1]. cbn [fst snd]. rewrite g_due. destruct (mech_due H t m1 && free && a); reflexivity.
  - rewrite (g_fill t m (KL eq_refl) (KM t eq_refl)). destruct (rt_fill_mech H t m) as [m1| | |]; reflexivity.
  - rewrite g_js. destruct (publishJointState H b m) as [m1| | |]; reflexivity.
  - rewrite (tp_please G TP). destruct (please m) eqn:P; [|reflexivity]. destruct KR as (_ & E & _); [auto|]. rewrite E. reflexivity.
  - destruct ps as [|p ps]; [destruct KR as (E & _); [eauto|]; rewrite E; reflexivity|].
    unfold rt_stop_one. rewrite g_stop. destruct (stop_ctrl H p m) as [bb m1]. cbn [fst snd]. destruct bb; [reflexivity|]. rewrite g_log. reflexivity.
  - destruct ps as [|p ps]; [reflexivity|].
    unfold rt_start_one. rewrite g_start. destruct (start_ctrl H p m) as [bb m1]. cbn [fst snd]. destruct bb; [reflexivity|]. rewrite g_log. reflexivity.
  - destruct KR as (_ & _ & E); [auto|]. cbn [on_ok]. rewrite E. reflexivity.
Qed.
End Blind.
End Race.

(* ------------------------------------------------------------------ what the threads leave alone *)
Section Frames.
Context {W : Type} (H : hooks W).
Notation mgr := (mgr W).
Notation config := (config W).

(** nothing but controller states, statistics, the clock and the world *)
Record leaves (m m' : mgr) : Prop := {
  lv_type : forall p, co_type (heap m' p) = co_type (heap m p);
  lv_deps : forall p, co_deps (heap m' p) = co_deps (heap m p);
  lv_start : start_req m' = start_req m;
  lv_stop : stop_req m' = stop_req m;
  lv_please : please m' = please m;
  lv_msg : mstats m' = mstats m }.
Lemma leaves_refl m : leaves m m.
Proof. constructor; reflexivity. Qed.
Lemma leaves_trans a b c : leaves a b -> leaves b c -> leaves a c.
Proof. intros [] []. constructor; intros; etransitivity; eauto. Qed.
Lemma leaves_now m : leaves m (snd (now H m)).
Proof. unfold now. destruct (h_now H (world m)). constructor; reflexivity. Qed.
Lemma leaves_log e m : leaves m (log e m).
Proof. constructor; reflexivity. Qed.
Lemma leaves_world f m : leaves m (on_world f m).
Proof. constructor; reflexivity. Qed.
Lemma leaves_put p s m : leaves m (put_state p s m).
Proof. constructor; try reflexivity; intros q; cbn; unfold upd_heap; destruct (Nat.eqb q p) eqn:E; try reflexivity; apply Nat.eqb_eq in E; subst; reflexivity. Qed.
Lemma leaves_calls p cbs m : leaves m (calls H p cbs m).
Proof. unfold calls. revert m. induction cbs as [|cb cbs IH]; intros m; [apply leaves_refl|]. cbn. eapply leaves_trans; [|apply IH]. constructor; reflexivity. Qed.
Lemma leaves_start p m : leaves m (snd (start_ctrl H p m)).
Proof. unfold start_ctrl. destruct (startRequest (state_of m p)) as [[b cbs] s]. cbn. eapply leaves_trans; [apply leaves_calls|apply leaves_put]. Qed.
Lemma leaves_stop p m : leaves m (snd (stop_ctrl H p m)).
Proof. unfold stop_ctrl. destruct (stopRequest (state_of m p)) as [[b cbs] s]. cbn. eapply leaves_trans; [apply leaves_calls|apply leaves_put]. Qed.
Lemma leaves_update p m : leaves m (update_ctrl H p m).
Proof. unfold update_ctrl. destruct (updateRequest (state_of m p)) as [cbs s]. eapply leaves_trans; [apply leaves_calls|apply leaves_put]. Qed.
Lemma leaves_pre m : leaves m (rt_pre H m).
Proof.
  unfold rt_pre. pose proof (leaves_now m) as A. destruct (now H m) as [t1 m1]. cbn [snd] in A. set (m2 := on_world _ (log _ (on_world _ (log _ m1)))).
  pose proof (leaves_now m2) as B. destruct (now H m2) as [t2 m3]. cbn [snd] in B. eapply leaves_trans; [exact A|]. eapply leaves_trans; [|exact B]. constructor; reflexivity.
Qed.
Lemma leaves_enforce m : leaves m (rt_enforce H m).
Proof. unfold rt_enforce. pose proof (leaves_now m) as A. destruct (now H m) as [t1 m1]. eapply leaves_trans; [exact A|]. constructor; reflexivity. Qed.
Lemma leaves_send m : leaves m (rt_send H m).
Proof. unfold rt_send. pose proof (leaves_now (on_world (h_effort H) (log EvEffort m))) as A. destruct (now H _) as [t1 m1]. eapply leaves_trans; [|exact A]. constructor; reflexivity. Qed.
Lemma leaves_js lock m m' : publishJointState H lock m = Ok m' -> leaves m m'.
Proof.
  unfold publishJointState. pose proof (leaves_now m) as A. destruct (now H m) as [t m1]. cbn [snd] in A. destruct (_ <? t)%Z; [|intros [= <-]; exact A].
  destruct lock; [|intros [= <-]; exact A]. destruct (catch_up _ _ _ _) as [x| | |]; cbn [bind]; try discriminate.
  pose proof (leaves_now (on_world (h_pub_js H t) (set_last_js x m1))) as B. destruct (now H _) as [t2 m2]. cbn [snd] in B. intros [= <-].
  eapply leaves_trans; [exact A|]. eapply leaves_trans; [|apply leaves_log]. eapply leaves_trans; [|exact B]. constructor; reflexivity.
Qed.
Lemma leaves_update_one m i m' : rt_update_one H m i = Ok m' -> leaves m m'.
Proof.
  unfold rt_update_one. destruct (rt_nth m i) as [e| | |]; cbn [bind]; try discriminate. pose proof (leaves_now m) as A. destruct (now H m) as [t0 m0]. cbn [snd] in A.
  pose proof (leaves_update (e_ptr e) m0) as B. pose proof (leaves_now (update_ctrl H (e_ptr e) m0)) as C. destruct (now H (update_ctrl H (e_ptr e) m0)) as [t1 m1]. cbn [snd] in C.
  intros [= <-]. eapply leaves_trans; [exact A|]. eapply leaves_trans; [exact B|]. eapply leaves_trans; [exact C|].
  constructor; try reflexivity; intros q; cbn; unfold upd_heap; destruct (Nat.eqb q (e_ptr e)) eqn:E; try reflexivity; apply Nat.eqb_eq in E; subst; reflexivity.
Qed.
Lemma rt_leaves free a b pc m m' pc' : rt_step H free a b pc m = Ok (m', pc') -> (forall t, pc <> RFill t) -> pc <> REnd -> leaves m m'.
Proof.
  intros E NF NE. destruct pc as [|x| |i|i|i| | |t| | |ps|ps|]; cbn [rt_step] in E; try (injection E as <- _; apply leaves_refl).
  - injection E as <- _. constructor; reflexivity.
  - pose proof (leaves_pre m) as A. cbv zeta in E. destruct (rt_must_restart H (rt_pre H m)); injection E as <- _; [exact A|]. eapply leaves_trans; [exact A|constructor; reflexivity].
  - destruct (rt_list m) as [l| | |]; cbn [bind] in E; try discriminate. destruct (Nat.ltb i (List.length l)); [|injection E as <- _; constructor; reflexivity].
    destruct (rt_nth m i) as [e| | |]; cbn [bind] in E; try discriminate. destruct (isRunning _); [|injection E as <- _; apply leaves_refl].
    pose proof (leaves_stop (e_ptr e) m) as A. destruct (stop_ctrl H (e_ptr e) m). injection E as <- _. exact A.
  - destruct (rt_nth m i) as [e| | |]; cbn [bind] in E; try discriminate. pose proof (leaves_start (e_ptr e) m) as A. destruct (start_ctrl H (e_ptr e) m). injection E as <- _. exact A.
  - destruct (rt_list m) as [l| | |]; cbn [bind] in E; try discriminate. destruct (Nat.ltb i (List.length l)); [|injection E as <- _; apply leaves_enforce].
    destruct (rt_update_one H m i) as [m1| | |] eqn:U; cbn [bind] in E; try discriminate. injection E as <- _. eapply leaves_update_one; exact U.
  - injection E as <- _. apply leaves_send.
  - pose proof (leaves_now m) as A. destruct (now H m) as [t m1]. cbn [snd] in A. destruct (mech_due H t m1 && free && a); injection E as <- _; exact A.
  - destruct (NF t eq_refl).
  - destruct (publishJointState H b m) as [m1| | |] eqn:U; cbn [bind] in E; try discriminate. injection E as <- _. eapply leaves_js; exact U.
  - destruct (please m); injection E as <- _; apply leaves_refl.
  - destruct ps as [|p ps]; injection E as <- _; [apply leaves_refl|]. unfold rt_stop_one. pose proof (leaves_stop p m) as A. destruct (stop_ctrl H p m) as [bb m1]. cbn [snd] in A.
    destruct bb; [exact A|]. eapply leaves_trans; [exact A|apply leaves_log].
  - destruct ps as [|p ps]; injection E as <- _; [apply leaves_refl|]. unfold rt_start_one. pose proof (leaves_start p m) as A. destruct (start_ctrl H p m) as [bb m1]. cbn [snd] in A.
    destruct bb; [exact A|]. eapply leaves_trans; [exact A|apply leaves_log].
  - contradiction.
Qed.
Lemma fill_leaves t m m' : rt_fill_mech H t m = Ok m' -> heap m' = heap m /\ start_req m' = start_req m /\ stop_req m' = stop_req m /\ please m' = please m.
Proof.
  unfold rt_fill_mech. destruct (catch_up _ _ _ _) as [x| | |]; cbn [bind]; try discriminate. destruct (rt_list _) as [l| | |]; cbn [bind]; try discriminate.
  destruct (fill_stats _ _ _ _ _) as [o| | |]; cbn [bind]; try discriminate. unfold now. cbn. destruct (h_now H _). intros [= <-]. cbn. auto.
Qed.

(* ------------------------------------------------------------------ the bodies depend only on the catalogue *)
Lemma run_init_ext (p1 p2 : provider) : (forall n, p1 n = p2 n) -> forall pr d, run_init (Some p1) pr d = run_init (Some p2) pr d.
Proof.
  intros E. induction pr as [b| |name sched cast k IH]; intros d; try reflexivity. cbn [run_init].
  assert (X : getController (Some p1) name sched cast d = getController (Some p2) name sched cast d) by (unfold getController, getControllerByName_as; rewrite E; reflexivity).
  rewrite X. destruct (getController (Some p2) name sched cast d) as [[b p] d']. apply IH.
Qed.
Lemma specs_ext h1 h2 l : (forall p, co_deps (h1 p) = co_deps (h2 p)) -> specs h1 l = specs h2 l.
Proof. intros E. unfold specs. apply map_ext. intros e. unfold spec_of. rewrite E. reflexivity. Qed.
Lemma calls_frame p cbs : forall (m : mgr), lists (calls H p cbs m) = lists m /\ scheds (calls H p cbs m) = scheds m /\ cur (calls H p cbs m) = cur m /\ next (calls H p cbs m) = next m /\
  heap (calls H p cbs m) = heap m /\ start_req (calls H p cbs m) = start_req m /\ stop_req (calls H p cbs m) = stop_req m.
Proof. unfold calls. induction cbs as [|cb cbs IH]; intros m; [repeat split|]. cbn [fold_left]. destruct (IH (Manager.call H p m cb)) as (A & B & C & D & E & F & G). rewrite A, B, C, D, E, F, G. repeat split. Qed.

Lemma load_same env n (m m' : mgr) : same_catalogue m m' -> start_req m' = start_req m -> stop_req m' = stop_req m ->
  same_outcome (load_body H env n m') (load_body H env n m).
Proof.
  intros [EL ES EC EN ET ED] E1 E2. unfold load_body, free_list. rewrite EL, EC.
  set (f := negb (cur m)). set (from := lists m (cur m)).
  assert (CL : forall x, same_catalogue (set_lists x m') (set_lists x m)) by (intros x; constructor; cbn; auto; congruence).
  assert (RQ : forall x, start_req (set_lists x m') = start_req (set_lists x m) /\ stop_req (set_lists x m') = stop_req (set_lists x m)) by (intros x; cbn; auto).
  destruct (existsb _ from); [cbn; split; [|auto]; constructor; cbn; auto; congruence|].
  destruct (negb (pe_node_ok env n)); [cbn; split; auto|].
  destruct (construct env n) as [[[ty pr]|]|]; cbn [same_outcome]; [|split; [constructor; cbn; auto; congruence|auto]|auto].
  set (m1 := set_lists (upd (lists m) f from) m). set (m1' := set_lists (upd (lists m) f from) m').
  assert (PV : forall q, as_provider m1' q = as_provider m1 q).
  { intros q. unfold as_provider, getControllerByName, m1, m1'. cbn. rewrite EC. destruct (option_map e_ptr _) as [p|]; [|reflexivity]. rewrite ET. reflexivity. }
  assert (IR : initRequest (Some (as_provider m1')) pr CONSTRUCTED no_deps = initRequest (Some (as_provider m1)) pr CONSTRUCTED no_deps).
  { unfold initRequest. rewrite (run_init_ext _ _ PV). reflexivity. }
  rewrite IR. destruct (initRequest (Some (as_provider m1)) pr CONSTRUCTED no_deps) as [[[ir cbs] s] d].
  change (next m1') with (next m'). change (next m1) with (next m). change (heap m1') with (heap m'). change (heap m1) with (heap m). rewrite EN.
  set (o := mkObj ty s d new_stats).
  set (w := set_next (S (next m)) (set_heap (upd_heap (heap m) (next m) o) m1)). set (w' := set_next (S (next m)) (set_heap (upd_heap (heap m') (next m) o) m1')).
  destruct (calls_frame (next m) cbs w) as (A1 & A2 & A3 & A4 & A5 & A6 & A7). destruct (calls_frame (next m) cbs w') as (B1 & B2 & B3 & B4 & B5 & B6 & B7).
  set (z := calls H (next m) cbs w) in *. set (z' := calls H (next m) cbs w') in *. clearbody z z'.
  assert (ZD : forall p, co_deps (heap z' p) = co_deps (heap z p) /\ co_type (heap z' p) = co_type (heap z p)).
  { intros p. rewrite A5, B5. cbn. unfold upd_heap. destruct (Nat.eqb p (next m)); auto. }
  assert (ZL : lists z' = lists z) by (rewrite A1, B1; reflexivity). assert (ZS : scheds z' = scheds z) by (rewrite A2, B2; exact ES).
  assert (ZC : cur z' = cur z) by (rewrite A3, B3; exact EC). assert (ZN : next z' = next z) by (rewrite A4, B4; reflexivity).
  assert (Z6 : start_req z' = start_req z) by (rewrite A6, B6; exact E1). assert (Z7 : stop_req z' = stop_req z) by (rewrite A7, B7; exact E2).
  destruct ir as [[|]|].
  - rewrite (specs_ext (heap z') (heap z) (from ++ [mkEntry n (next m)]) (fun p => proj1 (ZD p))), ZS.
    destruct (scheduleControllers _ _) as [sc|sc| |]; cbn [same_outcome]; auto; (split; [constructor; cbn; rewrite ?ZL, ?ZS; auto; try (intros p; symmetry; apply ZD)|cbn; auto]).
  - cbn [same_outcome]. split; [constructor; cbn; rewrite ?ZL; auto; try (intros p; symmetry; apply ZD)|cbn; auto].
  - cbn [same_outcome]. split; [constructor; cbn; rewrite ?ZL; auto; try (intros p; symmetry; apply ZD)|cbn; auto].
Qed.

Lemma transfer_same h h' n : forall l, (forall e, In e l -> e_name e = n -> isRunning (co_state (h' (e_ptr e))) = isRunning (co_state (h (e_ptr e)))) -> transfer h' n l = transfer h n l.
Proof.
  induction l as [|e l IH]; intros A; [reflexivity|]. cbn [transfer]. rewrite IH by (intros x I; apply A; right; exact I).
  destruct (String.eqb (e_name e) n) eqn:E; [|reflexivity]. apply String.eqb_eq in E. rewrite (A e (or_introl eq_refl) E). reflexivity.
Qed.
Lemma unload_same n (m m' : mgr) : same_catalogue m m' -> start_req m' = start_req m -> stop_req m' = stop_req m ->
  (forall e, In e (loaded m) -> e_name e = n -> runningb m' (e_ptr e) = runningb m (e_ptr e)) ->
  same_outcome (unload_body n m') (unload_body n m).
Proof.
  intros [EL ES EC EN ET ED] E1 E2 RU. unfold unload_body, free_list. rewrite EL, EC, ES.
  assert (DP : existsb (depends_on (heap m') n) (lists m (cur m)) = existsb (depends_on (heap m) n) (lists m (cur m))).
  { clear - ED. induction (lists m (cur m)) as [|e l IH]; [reflexivity|]. cbn. rewrite IH. unfold depends_on. rewrite ED. reflexivity. }
  rewrite DP. clear DP. destruct (existsb (depends_on (heap m) n) (lists m (cur m))); cbn [same_outcome]; [split; [constructor; cbn; auto; try congruence|cbn; auto]|].
  rewrite (transfer_same (heap m) (heap m') n (lists m (cur m)) RU). destruct (transfer (heap m) n (lists m (cur m))) as [[[|] to]|].
  2,3: cbn; split; [constructor; cbn; auto; try congruence|auto].
  rewrite (specs_ext (heap m') (heap m) to ED). destruct (scheduleControllers _ _) as [sc|sc| |]; cbn; auto; (split; [constructor; cbn; auto; try congruence|auto]).
Qed.
Lemma collect_same st (m m' : mgr) : lists m' = lists m -> cur m' = cur m -> forall ns, collect m' st ns = collect m st ns.
Proof. intros A B. induction ns as [|n ns IH]; [reflexivity|]. cbn. unfold getControllerByName. rewrite A, B, IH. reflexivity. Qed.
Lemma switch_same a b s (m m' : mgr) : same_catalogue m m' -> start_req m' = start_req m -> stop_req m' = stop_req m -> same_outcome (switch_body a b s m') (switch_body a b s m).
Proof.
  intros [EL ES EC EN ET ED] E1 E2. unfold switch_body. rewrite (collect_same _ m m' EL EC). destruct (collect m _ b) as [ps|]; [|cbn; split; [constructor; cbn; auto; try congruence|auto]].
  rewrite (collect_same _ (set_stop_req (stop_req m ++ ps) m) (set_stop_req (stop_req m' ++ ps) m') EL EC).
  destruct (collect _ _ a) as [qs|]; cbn; (split; [constructor; cbn; auto; try congruence|]); auto. rewrite E1, E2. auto.
Qed.
End Frames.
