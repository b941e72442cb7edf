(** Invariants of the controller manager (level A). *)
From Coq Require Import List String Arith Bool ZArith Lia Sorting.Permutation.
From Verif.Model Require Import Base Scheduler Controller Manager.
From Verif.Spec Require Import SchedulerSpec ManagerSpec.
From Verif.Proofs Require Import SchedulerProofs.
Import ListNotations.

Section Proofs.
Context {W : Type} (H : hooks W).
Notation mgr := (mgr W).

(* ------------------------------------------------------------------ frames *)
(** what the realtime cycle never changes *)
Definition frame (m m' : mgr) : Prop :=
  lists m' = lists m /\ scheds m' = scheds m /\ cur m' = cur m /\ used m' = used m /\
  next m' = next m /\ start_req m' = start_req m /\ stop_req m' = stop_req m /\ please m' = please m /\
  (forall p, co_type (heap m' p) = co_type (heap m p) /\ co_deps (heap m' p) = co_deps (heap m p)) /\
  (forall p, co_state (heap m' p) = CONSTRUCTED <-> co_state (heap m p) = CONSTRUCTED).

Lemma frame_refl m : frame m m.
Proof. unfold frame. intuition. Qed.

Lemma frame_trans m1 m2 m3 : frame m1 m2 -> frame m2 m3 -> frame m1 m3.
Proof.
  unfold frame. intros (A1&A2&A3&A4&A5&A6&A7&A8&A9&A10) (B1&B2&B3&B4&B5&B6&B7&B8&B9&B10).
  repeat split; try congruence.
  - destruct (A9 p), (B9 p). congruence.
  - destruct (A9 p), (B9 p). congruence.
  - intros E. apply A10, B10, E.
  - intros E. apply B10, A10, E.
Qed.

Lemma put_state_heap p s (m : mgr) q :
  heap (put_state p s m) q = if Nat.eqb q p then set_co_state s (heap m p) else heap m q.
Proof. reflexivity. Qed.

Lemma calls_spec p cbs : forall (m : mgr),
  heap (calls H p cbs m) = heap m /\ next (calls H p cbs m) = next m /\ lists (calls H p cbs m) = lists m /\
  scheds (calls H p cbs m) = scheds m /\ cur (calls H p cbs m) = cur m /\ used (calls H p cbs m) = used m /\
  start_req (calls H p cbs m) = start_req m /\ stop_req (calls H p cbs m) = stop_req m /\
  please (calls H p cbs m) = please m /\ prev_halted (calls H p cbs m) = prev_halted m /\
  mstats (calls H p cbs m) = mstats m /\ last_mech (calls H p cbs m) = last_mech m /\
  last_js (calls H p cbs m) = last_js m /\
  trace (calls H p cbs m) = trace m ++ map (EvCb p) cbs.
Proof.
  unfold calls. induction cbs as [|cb cbs IH]; intros m; simpl.
  - rewrite app_nil_r. repeat split; reflexivity.
  - specialize (IH (call H p m cb)). simpl in IH. rewrite <- app_assoc in IH. exact IH.
Qed.

(** A state change of one controller that is not to or from CONSTRUCTED. *)
Lemma frame_calls_put p s cbs (m : mgr) :
  (s = CONSTRUCTED <-> state_of m p = CONSTRUCTED) ->
  frame m (put_state p s (calls H p cbs m)).
Proof.
  intros Hs. destruct (calls_spec p cbs m) as (E1&E2&E3&E4&E5&E6&E7&E8&E9&E10&E11&E12&E13&E14).
  unfold frame. simpl. rewrite E2, E3, E4, E5, E6, E7, E8, E9.
  repeat split; auto; intros; rewrite E1 in *; unfold upd_heap in *;
    destruct (Nat.eqb_spec p0 p); subst; simpl in *; auto; unfold state_of in Hs; tauto.
Qed.

Lemma start_ctrl_spec p (m : mgr) :
  state_of m p <> CONSTRUCTED ->
  exists m', start_ctrl H p m = (true, m') /\ frame m m' /\
    trace m' = trace m ++ [EvCb p CbStarting] /\ mstats m' = mstats m /\ prev_halted m' = prev_halted m /\
    last_mech m' = last_mech m /\ last_js m' = last_js m /\
    (forall q, heap m' q = if Nat.eqb q p then set_co_state RUNNING (heap m p) else heap m q).
Proof.
  intros Hs. unfold start_ctrl, startRequest.
  destruct (state_of m p) eqn:E; try congruence;
    (eexists; split; [reflexivity|]; split; [apply frame_calls_put; rewrite E; split; discriminate|];
     destruct (calls_spec p [CbStarting] m) as (E1&E2&E3&E4&E5&E6&E7&E8&E9&E10&E11&E12&E13&E14);
     simpl; rewrite ?E14, ?E11, ?E10; repeat split; auto; intros q; unfold upd_heap; now rewrite E1).
Qed.

Lemma stop_ctrl_spec p (m : mgr) :
  state_of m p <> CONSTRUCTED ->
  exists m', stop_ctrl H p m = (true, m') /\ frame m m' /\
    trace m' = trace m ++ [EvCb p CbStopping] /\ mstats m' = mstats m /\ prev_halted m' = prev_halted m /\
    last_mech m' = last_mech m /\ last_js m' = last_js m /\
    (forall q, heap m' q = if Nat.eqb q p then set_co_state INITIALIZED (heap m p) else heap m q).
Proof.
  intros Hs. unfold stop_ctrl, stopRequest.
  destruct (state_of m p) eqn:E; try congruence;
    (eexists; split; [reflexivity|]; split; [apply frame_calls_put; rewrite E; split; discriminate|];
     destruct (calls_spec p [CbStopping] m) as (E1&E2&E3&E4&E5&E6&E7&E8&E9&E10&E11&E12&E13&E14);
     simpl; rewrite ?E14, ?E11, ?E10; repeat split; auto; intros q; unfold upd_heap; now rewrite E1).
Qed.

Lemma update_ctrl_spec p (m : mgr) :
  let m' := update_ctrl H p m in frame m m' /\
    trace m' = trace m ++ (if runningb m p then [EvCb p CbUpdate] else []) /\
    mstats m' = mstats m /\ prev_halted m' = prev_halted m /\
    last_mech m' = last_mech m /\ last_js m' = last_js m /\
    (forall q, heap m' q = heap m q).
Proof.
  unfold update_ctrl, updateRequest, runningb. fold (state_of m p).
  destruct (state_of m p) eqn:E; cbv zeta;
    (split; [apply frame_calls_put; rewrite E; split; congruence|]); simpl;
    repeat split; auto; rewrite ?app_nil_r; auto; intros q; unfold upd_heap;
    destruct (Nat.eqb_spec q p); subst; auto;
    unfold state_of in E; destruct (heap m p); simpl in *; unfold set_co_state; simpl; congruence.
Qed.

(* ------------------------------------------------------------------ schedule and order *)
Definition valid_sched (m : mgr) : Prop :=
  List.length (scheds m (cur m)) = List.length (loaded m) /\
  Forall (fun k => k < List.length (loaded m)) (scheds m (cur m)).

(** entries in schedule order *)
Definition order (m : mgr) : list entry :=
  flat_map (fun k => match nth_error (loaded m) k with Some e => [e] | None => [] end) (scheds m (cur m)).

Lemma exec_order_order m : exec_order m = map e_ptr (order m).
Proof.
  unfold exec_order, order. induction (scheds m (cur m)) as [|k s IH]; simpl; auto.
  rewrite map_app, <- IH. destruct (nth_error (loaded m) k); reflexivity.
Qed.

Lemma order_nth_list (l : list entry) (s : list nat) : forall i,
  Forall (fun k => k < List.length l) s -> i < List.length s ->
  exists e k, nth_error s i = Some k /\ nth_error l k = Some e /\
    nth_error (flat_map (fun k => match nth_error l k with Some e => [e] | None => [] end) s) i = Some e.
Proof.
  induction s as [|k s IH]; simpl; intros i Hf Hi; [lia|].
  inversion Hf as [|? ? Hk Hf']; subst.
  destruct (nth_error l k) as [e|] eqn:Hn; [|apply nth_error_None in Hn; lia].
  destruct i as [|i]; simpl.
  - exists e, k. auto.
  - apply IH; auto. lia.
Qed.

Lemma order_nth m i :
  valid_sched m -> used m = Some (cur m) -> i < List.length (loaded m) ->
  exists e, rt_nth m i = Ok e /\ nth_error (order m) i = Some e.
Proof.
  intros (Hl & Hf) Hu Hi. unfold rt_nth, rt_sched, rt_list. rewrite Hu. cbn [bind].
  rewrite <- Hl in Hi.
  destruct (order_nth_list _ _ i Hf Hi) as (e & k & H1 & H2 & H3).
  exists e. split; auto. unfold vget. rewrite H1. cbn [bind]. unfold loaded in H2. now rewrite H2.
Qed.

Lemma order_length m : valid_sched m -> List.length (order m) = List.length (loaded m).
Proof.
  intros (Hl & Hf). rewrite <- Hl. clear Hl. unfold order.
  induction (scheds m (cur m)) as [|k s IH]; simpl in *; auto.
  inversion Hf; subst. destruct (nth_error (loaded m) k) eqn:Hn; [|apply nth_error_None in Hn; lia].
  simpl. f_equal. auto.
Qed.

Lemma frame_order m m' : frame m m' -> order m' = order m.
Proof. intros (E1&E2&E3&_). unfold order, loaded. now rewrite E1, E2, E3. Qed.

Lemma frame_valid m m' : frame m m' -> valid_sched m -> valid_sched m'.
Proof. intros (E1&E2&E3&_). unfold valid_sched, loaded. now rewrite E1, E2, E3. Qed.

Lemma frame_used m m' : frame m m' -> used m = Some (cur m) -> used m' = Some (cur m').
Proof. intros (E1&E2&E3&E4&_). congruence. Qed.

(** a loop over the schedule is a fold over the entries in execution order *)
Lemma for_each_order (f : mgr -> nat -> res mgr) (g : mgr -> entry -> mgr) (P : mgr -> Prop) :
  (forall m i e, P m -> In e (order m) -> rt_nth m i = Ok e -> f m i = Ok (g m e)) ->
  (forall m e, P m -> In e (order m) -> P (g m e) /\ frame m (g m e)) ->
  forall m, P m -> valid_sched m -> used m = Some (cur m) ->
    for_each f (seq 0 (List.length (loaded m))) m = Ok (fold_left g (order m) m).
Proof.
  intros Hf Hg m HP Hv Hu.
  rewrite <- (order_length m Hv).
  assert (Hgen : forall l i m', P m' -> frame m m' ->
     (forall j e, nth_error l j = Some e -> nth_error (order m) (i + j) = Some e) ->
     for_each f (seq i (List.length l)) m' = Ok (fold_left g l m')).
  { induction l as [|e l IH]; intros i m' HP' Hfr Hl; simpl; auto.
    assert (Hi : nth_error (order m) i = Some e).
    { rewrite <- (Nat.add_0_r i). apply (Hl 0 e). reflexivity. }
    assert (Hlt : i < List.length (loaded m)).
    { rewrite <- (order_length m Hv). apply nth_error_Some. congruence. }
    destruct (order_nth m' i) as (e' & H1 & H2).
    - eapply frame_valid; eauto.
    - eapply frame_used; eauto.
    - unfold loaded in *. destruct Hfr as (E1&E2&E3&_). now rewrite E1, E3.
    - rewrite (frame_order m m' Hfr), Hi in H2. inversion H2; subst e'.
      assert (Hine : In e (order m')).
      { rewrite (frame_order m m' Hfr). eapply nth_error_In; eauto. }
      rewrite (Hf m' i e HP' Hine H1). simpl.
      destruct (Hg m' e HP' Hine) as [HP'' Hfr']. apply IH; auto.
      + eapply frame_trans; eauto.
      + intros j e'' Hj. rewrite Nat.add_succ_l, <- Nat.add_succ_r. apply Hl. exact Hj. }
  apply Hgen; auto using frame_refl.
Qed.

(* ------------------------------------------------------------------ the loops of update() *)
Definition inited (m : mgr) : Prop := forall e, In e (order m) -> state_of m (e_ptr e) <> CONSTRUCTED.

Lemma inited_frame m m' : frame m m' -> inited m -> inited m'.
Proof.
  intros Hf Hi e He. rewrite (frame_order m m' Hf) in He. specialize (Hi e He).
  destruct Hf as (_&_&_&_&_&_&_&_&_&Hs). unfold state_of in *. rewrite Hs. exact Hi.
Qed.

Definition restart_entry (m : mgr) (e : entry) : mgr :=
  if isRunning (state_of m (e_ptr e))
  then snd (start_ctrl H (e_ptr e) (snd (stop_ctrl H (e_ptr e) m))) else m.

Lemma restart_entry_spec m e :
  state_of m (e_ptr e) <> CONSTRUCTED ->
  let m' := restart_entry m e in
  frame m m' /\
  trace m' = trace m ++ (if runningb m (e_ptr e)
                         then [EvCb (e_ptr e) CbStopping; EvCb (e_ptr e) CbStarting] else []) /\
  mstats m' = mstats m /\ prev_halted m' = prev_halted m /\
  last_mech m' = last_mech m /\ last_js m' = last_js m /\
  (forall q, heap m' q = heap m q).
Proof.
  intros Hs. unfold restart_entry, runningb. fold (state_of m (e_ptr e)).
  destruct (isRunning (state_of m (e_ptr e))) eqn:Hr.
  - destruct (stop_ctrl_spec (e_ptr e) m Hs) as (m1 & E1 & F1 & T1 & S1 & P1 & L1 & J1 & H1).
    rewrite E1. simpl.
    assert (Hs1 : state_of m1 (e_ptr e) <> CONSTRUCTED).
    { unfold state_of. rewrite H1, Nat.eqb_refl. discriminate. }
    destruct (start_ctrl_spec (e_ptr e) m1 Hs1) as (m2 & E2 & F2 & T2 & S2 & P2 & L2 & J2 & H2).
    rewrite E2. simpl. split; [eapply frame_trans; eauto|]. split; [|split; [|split; [|split; [|split]]]]; try congruence.
    + rewrite T2, T1, <- app_assoc. reflexivity.
    + intros q. rewrite H2. destruct (Nat.eqb_spec q (e_ptr e)) as [->|Hne].
      * rewrite H1, Nat.eqb_refl. unfold state_of in Hr.
        destruct (heap m (e_ptr e)) as [ty st d ss]; simpl in *. unfold set_co_state; simpl.
        destruct st; try discriminate. reflexivity.
      * rewrite H1. apply Nat.eqb_neq in Hne. now rewrite Hne.
  - rewrite app_nil_r. repeat split; auto using frame_refl; tauto.
Qed.

Definition update_entry (m : mgr) (e : entry) : mgr :=
  let p := e_ptr e in
  let '(t0, m) := now H m in
  let m := update_ctrl H p m in
  let '(t1, m) := now H m in
  set_heap (upd_heap (heap m) p (set_co_stats (acc_stats (t1 - t0) t1 (co_stats (heap m p))) (heap m p))) m.

Lemma now_spec (m : mgr) : exists t w, now H m = (t, set_world w m).
Proof. unfold now. destruct (h_now H (world m)) as [t w]. eauto. Qed.

Lemma frame_world w m : frame m (set_world w m).
Proof. unfold frame; simpl; intuition. Qed.
Lemma frame_log e m : frame m (log e m).
Proof. unfold frame; simpl; intuition. Qed.
Lemma frame_prev b m : frame m (set_prev_halted b m).
Proof. unfold frame; simpl; intuition. Qed.
Lemma frame_mstats b m : frame m (set_mstats b m).
Proof. unfold frame; simpl; intuition. Qed.
Lemma frame_last_mech b m : frame m (set_last_mech b m).
Proof. unfold frame; simpl; intuition. Qed.
Lemma frame_last_js b m : frame m (set_last_js b m).
Proof. unfold frame; simpl; intuition. Qed.

Lemma frame_stats p s m : frame m (set_heap (upd_heap (heap m) p (set_co_stats s (heap m p))) m).
Proof.
  unfold frame, upd_heap; simpl. repeat split; auto; intros; destruct (Nat.eqb_spec p0 p); subst; auto.
Qed.

Lemma update_entry_spec m e :
  let m' := update_entry m e in
  frame m m' /\
  trace m' = trace m ++ (if runningb m (e_ptr e) then [EvCb (e_ptr e) CbUpdate] else []) /\
  mstats m' = mstats m /\ prev_halted m' = prev_halted m /\
  last_mech m' = last_mech m /\ last_js m' = last_js m /\
  (forall q, state_of m' q = state_of m q) /\
  (forall q, q <> e_ptr e -> heap m' q = heap m q) /\
  exists d t, co_stats (heap m' (e_ptr e)) = acc_stats d t (co_stats (heap m (e_ptr e))).
Proof.
  unfold update_entry. destruct (now_spec m) as (t0 & w0 & ->).
  pose proof (update_ctrl_spec (e_ptr e) (set_world w0 m)) as (F & T & S & P & L & J & Hh).
  set (m1 := update_ctrl H (e_ptr e) (set_world w0 m)) in *.
  destruct (now_spec m1) as (t1 & w1 & ->).
  split; [|split; [|split; [|split; [|split; [|split; [|split; [|split]]]]]]].
  - eapply frame_trans; [apply (frame_world w0)|]. eapply frame_trans; [exact F|].
    eapply frame_trans; [apply (frame_world w1)|]. apply frame_stats.
  - simpl. rewrite T. reflexivity.
  - simpl. rewrite S. reflexivity.
  - simpl. rewrite P. reflexivity.
  - simpl. rewrite L. reflexivity.
  - simpl. rewrite J. reflexivity.
  - intros q. unfold state_of. simpl. unfold upd_heap.
    destruct (Nat.eqb_spec q (e_ptr e)); subst; simpl; now rewrite Hh.
  - intros q Hq. simpl. unfold upd_heap. destruct (Nat.eqb_spec q (e_ptr e)); [contradiction|]. now rewrite Hh.
  - simpl. unfold upd_heap. rewrite Nat.eqb_refl. simpl. rewrite Hh. eauto.
Qed.

(** folding over entries *)
Lemma fold_restart es : forall m,
  (forall e, In e es -> state_of m (e_ptr e) <> CONSTRUCTED) ->
  let m' := fold_left restart_entry es m in
  frame m m' /\
  trace m' = trace m ++ flat_map (fun p => if runningb m p then [EvCb p CbStopping; EvCb p CbStarting] else [])
                          (map e_ptr es) /\
  mstats m' = mstats m /\ prev_halted m' = prev_halted m /\
  last_mech m' = last_mech m /\ last_js m' = last_js m /\
  (forall q, heap m' q = heap m q).
Proof.
  induction es as [|e es IH]; intros m Hi; simpl.
  - rewrite app_nil_r. repeat split; auto using frame_refl; tauto.
  - pose proof (restart_entry_spec m e (Hi e (or_introl eq_refl))) as (F & T & S & P & L & J & Hh).
    set (m1 := restart_entry m e) in *.
    destruct (IH m1) as (F2 & T2 & S2 & P2 & L2 & J2 & H2).
    { intros e' He'. unfold state_of. rewrite Hh. apply Hi. now right. }
    split; [eapply frame_trans; eauto|].
    split; [|split; [|split; [|split; [|split]]]]; try congruence.
    + rewrite T2, T, <- app_assoc. f_equal. f_equal.
      apply flat_map_ext. intros p. unfold runningb. now rewrite Hh.
Qed.

Lemma fold_update es : forall m,
  let m' := fold_left update_entry es m in
  frame m m' /\
  trace m' = trace m ++ flat_map (fun p => if runningb m p then [EvCb p CbUpdate] else []) (map e_ptr es) /\
  mstats m' = mstats m /\ prev_halted m' = prev_halted m /\
  last_mech m' = last_mech m /\ last_js m' = last_js m /\
  (forall q, state_of m' q = state_of m q) /\
  (forall q, ~ In q (map e_ptr es) -> heap m' q = heap m q) /\
  (forall q, exists ss, st_samples (co_stats (heap m' q)) = st_samples (co_stats (heap m q)) ++ ss /\
             (In q (map e_ptr es) -> ss <> [])).
Proof.
  induction es as [|e es IH]; intros m; simpl.
  - rewrite app_nil_r. repeat split; auto using frame_refl. intros q. exists []. rewrite app_nil_r. tauto.
  - pose proof (update_entry_spec m e) as (F & T & S & P & L & J & Hh & Ho & (d & t & Hst)).
    set (m1 := update_entry m e) in *.
    destruct (IH m1) as (F2 & T2 & S2 & P2 & L2 & J2 & H2 & O2 & St2).
    split; [eapply frame_trans; eauto|].
    split; [|split; [|split; [|split; [|split; [|split; [|split]]]]]]; try congruence.
    + rewrite T2, T, <- app_assoc. f_equal. f_equal.
      apply flat_map_ext. intros p. unfold runningb. fold (state_of m1 p) (state_of m p). now rewrite Hh.
    + intros q Hq. rewrite O2 by tauto. apply Ho. intros ->. tauto.
    + intros q. destruct (St2 q) as (ss & E & Hne). destruct (Nat.eq_dec q (e_ptr e)) as [->|Hq].
      * rewrite Hst in E. simpl in E. exists ([d] ++ ss). split.
        -- now rewrite E, <- app_assoc.
        -- intros _. discriminate.
      * exists ss. rewrite (Ho q Hq) in E. split; auto. intros [He|Hin]; [congruence|auto].
Qed.

Lemma rt_restart_spec m :
  valid_sched m -> used m = Some (cur m) -> inited m ->
  exists m', rt_restart H m = Ok m' /\ frame m m' /\
    trace m' = trace m ++ (if rt_must_restart H m
        then flat_map (fun p => if runningb m p then [EvCb p CbStopping; EvCb p CbStarting] else [])
                      (exec_order m) else []) /\
    mstats m' = mstats m /\ last_mech m' = last_mech m /\ last_js m' = last_js m /\
    (forall q, heap m' q = heap m q) /\ prev_halted m' = h_halted H (world m').
Proof.
  intros Hv Hu Hi. unfold rt_restart, rt_list. rewrite Hu. cbn [bind]. fold (loaded m).
  destruct (rt_must_restart H m).
  - rewrite (for_each_order _ restart_entry inited) with (m := m); auto.
    + pose proof (fold_restart (order m) m Hi) as (F & T & S & P & L & J & Hh).
      rewrite exec_order_order.
      eexists; split; [reflexivity|]. split.
      { eapply frame_trans; [exact F|apply frame_prev]. }
      simpl. repeat split; auto.
    + intros m0 i e Hi0 _ Hn. unfold rt_restart_one. rewrite Hn. simpl. unfold restart_entry.
      destruct (isRunning (state_of m0 (e_ptr e))); auto.
      destruct (stop_ctrl H (e_ptr e) m0) as [b1 m1]. simpl.
      destruct (start_ctrl H (e_ptr e) m1) as [b2 m2]. reflexivity.
    + intros m0 e Hi0 He. pose proof (restart_entry_spec m0 e (Hi0 e He)) as (F & _).
      split; auto. eapply inited_frame; eauto.
  - simpl. eexists; split; [reflexivity|]. rewrite app_nil_r. split; [apply frame_prev|].
    simpl. repeat split; auto.
Qed.

Lemma rt_update_all_spec m :
  valid_sched m -> used m = Some (cur m) ->
  exists m', rt_update_all H m = Ok m' /\ frame m m' /\
    trace m' = trace m ++ flat_map (fun p => if runningb m p then [EvCb p CbUpdate] else []) (exec_order m) /\
    mstats m' = mstats m /\ prev_halted m' = prev_halted m /\
    last_mech m' = last_mech m /\ last_js m' = last_js m /\
    (forall q, state_of m' q = state_of m q) /\
    (forall q, In q (exec_order m) -> st_samples (co_stats (heap m' q)) <> []).
Proof.
  intros Hv Hu. unfold rt_update_all, rt_list. rewrite Hu. cbn [bind]. fold (loaded m).
  rewrite (for_each_order _ update_entry (fun _ => True)) with (m := m); auto.
  - pose proof (fold_update (order m) m) as (F & T & S & P & L & J & Hh & Ho & Hst).
    rewrite exec_order_order. eexists; split; [reflexivity|].
    do 7 (split; [assumption|]).
    intros q Hq. destruct (Hst q) as (ss & -> & Hne). specialize (Hne Hq).
    intros E. apply app_eq_nil in E. tauto.
  - intros m0 i e _ _ Hn. unfold rt_update_one. rewrite Hn. simpl. unfold update_entry.
    destruct (now_spec m0) as (t0 & w0 & ->).
    destruct (now_spec (update_ctrl H (e_ptr e) (set_world w0 m0))) as (t1 & w1 & ->). reflexivity.
  - intros m0 e _ _. split; auto. apply update_entry_spec.
Qed.

Lemma rt_pre_spec m :
  frame m (rt_pre H m) /\ trace (rt_pre H m) = trace m ++ [EvPropagate; EvZero] /\
  heap (rt_pre H m) = heap m /\ mstats (rt_pre H m) = mstats m /\ prev_halted (rt_pre H m) = prev_halted m /\
  last_mech (rt_pre H m) = last_mech m /\ last_js (rt_pre H m) = last_js m.
Proof.
  unfold rt_pre. destruct (now_spec m) as (t & w & ->). cbv zeta.
  match goal with |- context [now H ?x] => destruct (now_spec x) as (t2 & w2 & ->) end.
  simpl. rewrite <- app_assoc. repeat split; auto.
Qed.

Lemma rt_enforce_spec m :
  frame m (rt_enforce H m) /\ trace (rt_enforce H m) = trace m ++ [EvEnforce] /\
  heap (rt_enforce H m) = heap m /\ mstats (rt_enforce H m) = mstats m /\ prev_halted (rt_enforce H m) = prev_halted m /\
  last_mech (rt_enforce H m) = last_mech m /\ last_js (rt_enforce H m) = last_js m.
Proof.
  unfold rt_enforce. destruct (now_spec m) as (t & w & ->). cbv zeta. simpl. repeat split; auto.
Qed.

Lemma rt_send_spec m :
  frame m (rt_send H m) /\ trace (rt_send H m) = trace m ++ [EvEffort] /\
  heap (rt_send H m) = heap m /\ mstats (rt_send H m) = mstats m /\ prev_halted (rt_send H m) = prev_halted m /\
  last_mech (rt_send H m) = last_mech m /\ last_js (rt_send H m) = last_js m.
Proof.
  unfold rt_send. cbv zeta. 
  match goal with |- context [now H ?x] => destruct (now_spec x) as (t2 & w2 & ->) end.
  simpl. repeat split; auto.
Qed.

Lemma rt_post_spec m :
  frame m (rt_post H m) /\ trace (rt_post H m) = trace m ++ [EvEnforce; EvEffort] /\
  heap (rt_post H m) = heap m /\ mstats (rt_post H m) = mstats m /\ prev_halted (rt_post H m) = prev_halted m /\
  last_mech (rt_post H m) = last_mech m /\ last_js (rt_post H m) = last_js m.
Proof.
  unfold rt_post, rt_enforce, rt_send. destruct (now_spec m) as (t & w & ->). cbv zeta.
  match goal with |- context [now H ?x] => destruct (now_spec x) as (t2 & w2 & ->) end.
  simpl. rewrite <- app_assoc. repeat split; auto.
Qed.

(* ------------------------------------------------------------------ publishing *)
Lemma catch_up_ok fuel : forall last period t,
  (0 < period)%Z -> (Z.to_nat (t - last) <= fuel) ->
  exists last', catch_up fuel last period t = Ok last'.
Proof.
  induction fuel as [|fuel IH]; intros last period t Hp Hf; simpl.
  - destruct (Z.ltb_spec (last + period) t); [lia|eauto].
  - destruct (Z.ltb_spec (last + period) t); [|eauto]. apply IH; lia.
Qed.

Lemma fill_stats_ok (m : mgr) t l : forall i out,
  i + List.length l <= List.length out ->
  exists out', fill_stats m t l i out = Ok out' /\ List.length out' = List.length out /\
    map cs_name out' = map cs_name out /\
    (forall j, j < i \/ i + List.length l <= j -> nth_error out' j = nth_error out j) /\
    (forall j e c, nth_error l j = Some e -> nth_error out' (i + j) = Some c ->
       cs_stamp c = t /\ cs_running c = runningb m (e_ptr e) /\
       cs_samples c = st_samples (co_stats (heap m (e_ptr e))) /\
       cs_overruns c = st_overruns (co_stats (heap m (e_ptr e))) /\
       cs_last_overrun c = st_last_overrun (co_stats (heap m (e_ptr e)))).
Proof.
  induction l as [|e l IH]; intros i out Hl; simpl in *.
  - exists out. repeat split; auto; destruct j; discriminate.
  - unfold vget at 1. destruct (nth_error out i) as [old|] eqn:Hn.
    2:{ apply nth_error_None in Hn. lia. }
    simpl. rewrite vset_ok by lia. simpl.
    set (c := mkCstat _ _ _ _ _ _).
    destruct (IH (S i) (set_nth i c out)) as (out' & E & L & N & O & C).
    { rewrite set_nth_length. lia. }
    exists out'. split; auto. rewrite set_nth_length in L. split; auto. split; [|split].
    + rewrite N. clear -Hn. revert i Hn. induction out as [|x out IH]; intros [|i] Hn; simpl in *; try discriminate.
      * inversion Hn; subst. reflexivity.
      * f_equal. now apply IH.
    + intros j Hj. rewrite O by lia. rewrite set_nth_other by lia. reflexivity.
    + intros j e' c' Hj Hc. destruct j as [|j]; simpl in Hj.
      * inversion Hj; subst e'. rewrite Nat.add_0_r in Hc. rewrite O in Hc by lia.
        rewrite set_nth_same in Hc by lia. inversion Hc; subst c'. simpl. unfold runningb. auto.
      * apply (C j e' c' Hj). rewrite <- Hc. f_equal. lia.
Qed.

(** what publishing may change: the statistics contents (not the names), clock, timers, trace *)
Lemma publish_mech_spec lock m :
  (0 < h_per_mech H)%Z -> used m = Some (cur m) -> List.length (loaded m) <= List.length (mstats m) ->
  exists m' ev, publishMechanismStatistics H lock m = Ok m' /\ frame m m' /\
    heap m' = heap m /\ prev_halted m' = prev_halted m /\
    trace m' = trace m ++ ev /\ (ev = [] \/ ev = [EvPubMech (mstats m')]) /\
    map cs_name (mstats m') = map cs_name (mstats m) /\
    (ev <> [] -> forall j e c, nth_error (loaded m) j = Some e -> nth_error (mstats m') j = Some c ->
       cs_running c = runningb m (e_ptr e) /\
       cs_samples c = st_samples (co_stats (heap m (e_ptr e))) /\
       cs_overruns c = st_overruns (co_stats (heap m (e_ptr e))) /\
       cs_last_overrun c = st_last_overrun (co_stats (heap m (e_ptr e)))).
Proof.
  intros Hp Hu Hl. unfold publishMechanismStatistics. destruct (now_spec m) as (t & w & ->).
  assert (Hskip : forall w', exists m' ev, Ok (set_world w' m) = Ok m' /\ frame m m' /\
    heap m' = heap m /\ prev_halted m' = prev_halted m /\
    trace m' = trace m ++ ev /\ (ev = [] \/ ev = [EvPubMech (mstats m')]) /\
    map cs_name (mstats m') = map cs_name (mstats m) /\
    (ev <> [] -> forall j e c, nth_error (loaded m) j = Some e -> nth_error (mstats m') j = Some c ->
       cs_running c = runningb m (e_ptr e) /\
       cs_samples c = st_samples (co_stats (heap m (e_ptr e))) /\
       cs_overruns c = st_overruns (co_stats (heap m (e_ptr e))) /\
       cs_last_overrun c = st_last_overrun (co_stats (heap m (e_ptr e))))).
  { intros w'. exists (set_world w' m), []. rewrite app_nil_r. repeat split; auto using frame_world; congruence. }
  destruct (mech_due H t (set_world w m)); [|apply Hskip].
  destruct lock; [|apply Hskip].
  unfold rt_fill_mech.
  destruct (catch_up_ok (catch_up_fuel (last_mech (set_world w m)) t) (last_mech (set_world w m)) (h_per_mech H) t Hp)
    as (last' & ->); [unfold catch_up_fuel; lia|].
  cbn [bind]. unfold rt_list. simpl used. rewrite Hu. cbn [bind].
  simpl lists. change (lists m (cur m)) with (loaded m).
  match goal with |- context [fill_stats ?mm t _ 0 ?out] =>
    destruct (fill_stats_ok mm t (loaded m) 0 out) as (out' & E & L & N & O & C) end.
  { simpl. lia. }
  rewrite E. cbn [bind].
  match goal with |- context [now H ?x] => destruct (now_spec x) as (t2 & w2 & ->) end.
  eexists. exists [EvPubMech out']. split; [reflexivity|].
  split; [unfold frame; simpl; intuition|]. simpl. repeat split; auto;
    destruct (C j e c H1 H2) as (? & ? & ? & ? & ?); auto.
Qed.

Lemma publish_js_spec lock m :
  (0 < h_per_js H)%Z ->
  exists m' ev, publishJointState H lock m = Ok m' /\ frame m m' /\ heap m' = heap m /\
    prev_halted m' = prev_halted m /\ mstats m' = mstats m /\
    trace m' = trace m ++ ev /\ (ev = [] \/ ev = [EvPubJoint]).
Proof.
  intros Hp. unfold publishJointState. destruct (now_spec m) as (t & w & ->).
  assert (Hskip : exists m' ev, Ok (set_world w m) = Ok m' /\ frame m m' /\ heap m' = heap m /\
    prev_halted m' = prev_halted m /\ mstats m' = mstats m /\
    trace m' = trace m ++ ev /\ (ev = [] \/ ev = [EvPubJoint])).
  { exists (set_world w m), []. rewrite app_nil_r. repeat split; auto using frame_world. }
  destruct (last_js (set_world w m) + h_per_js H <? t)%Z; [|apply Hskip].
  destruct lock; [|apply Hskip].
  destruct (catch_up_ok (catch_up_fuel (last_js (set_world w m)) t) (last_js (set_world w m)) (h_per_js H) t Hp)
    as (last' & ->); [unfold catch_up_fuel; lia|].
  cbn [bind].
  match goal with |- context [now H ?x] => destruct (now_spec x) as (t2 & w2 & ->) end.
  eexists. exists [EvPubJoint]. split; [reflexivity|]. split; [unfold frame; simpl; intuition|].
  simpl. repeat split; auto.
Qed.

(* ------------------------------------------------------------------ the switch at the end of a cycle *)
Lemma fold_stop ps : forall m,
  (forall p, In p ps -> state_of m p <> CONSTRUCTED) ->
  let m' := fold_left (rt_stop_one H) ps m in
  frame m m' /\ trace m' = trace m ++ map (fun p => EvCb p CbStopping) ps /\
  mstats m' = mstats m /\ prev_halted m' = prev_halted m /\
  (forall q, heap m' q = if existsb (Nat.eqb q) ps then set_co_state INITIALIZED (heap m q) else heap m q).
Proof.
  induction ps as [|p ps IH]; intros m Hi; simpl.
  - rewrite app_nil_r. repeat split; auto using frame_refl; tauto.
  - destruct (stop_ctrl_spec p m (Hi p (or_introl eq_refl))) as (m1 & E & F & T & S & P & L & J & Hh).
    assert (E' : rt_stop_one H m p = m1) by (unfold rt_stop_one; now rewrite E). rewrite E'.
    destruct (IH m1) as (F2 & T2 & S2 & P2 & H2).
    { intros q Hq. assert (state_of m q <> CONSTRUCTED) by (apply Hi; now right).
      destruct F as (_&_&_&_&_&_&_&_&_&Hs). unfold state_of in *. now rewrite Hs. }
    split; [eapply frame_trans; eauto|]. split; [now rewrite T2, T, <- app_assoc|].
    split; [congruence|]. split; [congruence|].
    intros q. rewrite H2, Hh. destruct (Nat.eqb_spec q p); subst; simpl.
    + destruct (existsb (Nat.eqb p) ps); reflexivity.
    + reflexivity.
Qed.

Lemma fold_start ps : forall m,
  (forall p, In p ps -> state_of m p <> CONSTRUCTED) ->
  let m' := fold_left (rt_start_one H) ps m in
  frame m m' /\ trace m' = trace m ++ map (fun p => EvCb p CbStarting) ps /\
  mstats m' = mstats m /\ prev_halted m' = prev_halted m /\
  (forall q, heap m' q = if existsb (Nat.eqb q) ps then set_co_state RUNNING (heap m q) else heap m q).
Proof.
  induction ps as [|p ps IH]; intros m Hi; simpl.
  - rewrite app_nil_r. repeat split; auto using frame_refl; tauto.
  - destruct (start_ctrl_spec p m (Hi p (or_introl eq_refl))) as (m1 & E & F & T & S & P & L & J & Hh).
    assert (E' : rt_start_one H m p = m1) by (unfold rt_start_one; now rewrite E). rewrite E'.
    destruct (IH m1) as (F2 & T2 & S2 & P2 & H2).
    { intros q Hq. assert (state_of m q <> CONSTRUCTED) by (apply Hi; now right).
      destruct F as (_&_&_&_&_&_&_&_&_&Hs). unfold state_of in *. now rewrite Hs. }
    split; [eapply frame_trans; eauto|]. split; [now rewrite T2, T, <- app_assoc|].
    split; [congruence|]. split; [congruence|].
    intros q. rewrite H2, Hh. destruct (Nat.eqb_spec q p); subst; simpl.
    + destruct (existsb (Nat.eqb p) ps); reflexivity.
    + reflexivity.
Qed.

(** state of controller [q] after executing the pending requests *)
Definition switched_state (m : mgr) (q : ptr) : cstate :=
  if existsb (Nat.eqb q) (start_req m) then RUNNING
  else if existsb (Nat.eqb q) (stop_req m) then INITIALIZED else state_of m q.

Lemma rt_switch_spec m :
  (forall p, In p (start_req m ++ stop_req m) -> state_of m p <> CONSTRUCTED) ->
  let m' := rt_switch H m in
  lists m' = lists m /\ scheds m' = scheds m /\ cur m' = cur m /\ used m' = used m /\ next m' = next m /\
  mstats m' = mstats m /\ prev_halted m' = prev_halted m /\ please m' = false /\
  (please m = false -> m' = m) /\
  (please m = true -> start_req m' = [] /\ stop_req m' = [] /\
     trace m' = trace m ++ map (fun p => EvCb p CbStopping) (stop_req m) ++
                 map (fun p => EvCb p CbStarting) (start_req m) ++ [EvSwitchDone] /\
     (forall q, state_of m' q = switched_state m q)) /\
  (forall p, co_type (heap m' p) = co_type (heap m p) /\ co_deps (heap m' p) = co_deps (heap m p)) /\
  (forall p, co_stats (heap m' p) = co_stats (heap m p)) /\
  (forall p, state_of m' p = CONSTRUCTED <-> state_of m p = CONSTRUCTED).
Proof.
  intros Hi. unfold rt_switch. destruct (please m) eqn:Hpl.
  2:{ cbv zeta. repeat split; auto; congruence. }
  destruct (fold_stop (stop_req m) m) as (F1 & T1 & S1 & P1 & H1).
  { intros p Hp. apply Hi, in_or_app. now right. }
  set (m1 := fold_left (rt_stop_one H) (stop_req m) m) in *.
  pose proof F1 as (A1&A2&A3&A4&A5&A6&A7&A8&A9&A10).
  destruct (fold_start (start_req m1) m1) as (F2 & T2 & S2 & P2 & H2).
  { intros p Hp. rewrite A6 in Hp.
    assert (state_of m p <> CONSTRUCTED) by (apply Hi, in_or_app; now left).
    unfold state_of in *. now rewrite A10. }
  set (m2 := fold_left (rt_start_one H) (start_req m1) m1) in *.
  pose proof F2 as (B1&B2&B3&B4&B5&B6&B7&B8&B9&B10).
  cbv zeta. unfold rt_switch_end. simpl.
  assert (Hst : forall q, co_state (heap m2 q) = switched_state m q).
  { intros q. rewrite H2, H1, A6. unfold switched_state, state_of.
    destruct (existsb (Nat.eqb q) (start_req m)), (existsb (Nat.eqb q) (stop_req m)); reflexivity. }
  split; [congruence|]. split; [congruence|]. split; [congruence|]. split; [congruence|].
  split; [congruence|]. split; [congruence|]. split; [congruence|]. split; [reflexivity|].
  split; [discriminate|]. split.
  { intros _. split; auto. split; auto. split.
    - rewrite T2, T1, A6, <- !app_assoc. reflexivity.
    - exact Hst. }
  split; [intros p; destruct (A9 p), (B9 p); split; congruence|].
  split.
  - intros p. rewrite H2, H1. destruct (existsb (Nat.eqb p) (start_req m1)), (existsb (Nat.eqb p) (stop_req m)); reflexivity.
  - intros p. unfold state_of. simpl. rewrite B10, A10. reflexivity.
Qed.

End Proofs.
