(** Level B: what each step adds to the history. *)
From Coq Require Import List String Arith Bool ZArith Lia Sorting.Permutation.
From Verif.Model Require Import Base Scheduler Controller Manager ManagerConc.
From Verif.Spec Require Import SchedulerSpec ManagerSpec ConcSpec.
From Verif.Proofs Require Import SchedulerProofs ManagerProofs ManagerInv ManagerOps ConcBase ConcInv.
Import ListNotations.

Section CTrace.
Context {W : Type} (H : hooks W).
Notation mgr := (mgr W).
Notation config := (config W).
Hypothesis Hpm : (0 < h_per_mech H)%Z.
Hypothesis Hpj : (0 < h_per_js H)%Z.

Definition same_states (m m' : mgr) : Prop := forall q, state_of m' q = state_of m q.
Definition put1 (p : ptr) (s : cstate) (m m' : mgr) : Prop :=
  forall q, state_of m' q = if Nat.eqb q p then s else state_of m q.

(** effect of the realtime thread's next step *)
Definition rt_desc (c : config) (m' : mgr) (pc' : rpc) (evs : list event) : Prop :=
  let m := mg c in
  match rt c with
  | RIdle => m' = m /\ pc' = RGot (cur m) /\ evs = []
  | RGot b => m' = rt_use b m /\ pc' = RBegin /\ evs = []
  | RBegin => frame m m' /\ same_states m m' /\ evs = [EvPropagate; EvZero] /\
      ((pc' = RRestart 0 /\ prev_halted m = true) \/ pc' = RUpdate 0)
  | RRestart i => frame m m' /\ exists b, used m = Some b /\
      ((exists e, nth_error (order_in_list m b) i = Some e /\ In e (lists m b) /\
          if runningb m (e_ptr e)
          then evs = [EvCb (e_ptr e) CbStopping] /\ pc' = RRestarting i /\ put1 (e_ptr e) INITIALIZED m m'
          else evs = [] /\ pc' = RRestart (S i) /\ same_states m m')
       \/ (List.length (lists m b) <= i /\ evs = [] /\ pc' = RUpdate 0 /\ same_states m m'))
  | RRestarting i => frame m m' /\ exists b e, used m = Some b /\ nth_error (order_in_list m b) i = Some e /\
      In e (lists m b) /\ evs = [EvCb (e_ptr e) CbStarting] /\ pc' = RRestart (S i) /\ put1 (e_ptr e) RUNNING m m'
  | RUpdate i => frame m m' /\ same_states m m' /\ exists b, used m = Some b /\
      ((exists e, nth_error (order_in_list m b) i = Some e /\ In e (lists m b) /\ pc' = RUpdate (S i) /\
          evs = if runningb m (e_ptr e) then [EvCb (e_ptr e) CbUpdate] else [])
       \/ (List.length (lists m b) <= i /\ evs = [EvEnforce] /\ pc' = REffort))
  | REffort => frame m m' /\ same_states m m' /\ evs = [EvEffort] /\ pc' = RPub1
  | RPub1 => frame m m' /\ same_states m m' /\ evs = [] /\ (pc' = RPub2 \/ exists t, pc' = RFill t)
  | RFill t => frame m m' /\ same_states m m' /\ pc' = RPub2 /\ evs = [EvPubMech (mstats m')] /\
      used m = Some (cur m) /\ map cs_name (mstats m') = map e_name (loaded m) /\
      (forall j e s, nth_error (loaded m) j = Some e -> nth_error (mstats m') j = Some s ->
         cs_stamp s = t /\ cs_running s = runningb m (e_ptr e) /\
         cs_samples s = st_samples (co_stats (heap m (e_ptr e))) /\
         cs_overruns s = st_overruns (co_stats (heap m (e_ptr e))) /\
         cs_last_overrun s = st_last_overrun (co_stats (heap m (e_ptr e))))
  | RPub2 => frame m m' /\ same_states m m' /\ pc' = RSwitch /\ (evs = [] \/ evs = [EvPubJoint])
  | RSwitch => m' = m /\ evs = [] /\ pc' = (if please m then RStop (stop_req m) else RIdle)
  | RStop [] => m' = m /\ evs = [] /\ pc' = RStart (start_req m)
  | RStop (p :: ps) => frame m m' /\ put1 p INITIALIZED m m' /\ evs = [EvCb p CbStopping] /\ pc' = RStop ps /\
      In p (map e_ptr (loaded m))
  | RStart [] => m' = m /\ evs = [] /\ pc' = REnd
  | RStart (p :: ps) => frame m m' /\ put1 p RUNNING m m' /\ evs = [EvCb p CbStarting] /\ pc' = RStart ps /\
      In p (map e_ptr (loaded m))
  | REnd => m' = rt_switch_end m /\ evs = [EvSwitchDone] /\ pc' = RIdle
  end.

Lemma put1_of_heap (m m' : mgr) p s :
  (forall q, heap m' q = if Nat.eqb q p then set_co_state s (heap m p) else heap m q) -> put1 p s m m'.
Proof. intros E q. unfold state_of. rewrite E. destruct (Nat.eqb q p); reflexivity. Qed.

Lemma same_of_heap (m m' : mgr) : heap m' = heap m -> same_states m m'.
Proof. intros E q. unfold state_of. now rewrite E. Qed.

Lemma rt_effect free l1 l2 c :
  InvB c -> ~ stale_start c ->
  exists m' pc' evs, rt_step H free l1 l2 (rt c) (mg c) = Ok (m', pc') /\ trace m' = trace (mg c) ++ evs /\
    rt_desc c m' pc' evs.
Proof.
  intros I Hst. pose proof (ib_rt c I) as R. pose proof (ib_core c I) as C.
  assert (Hu : used (mg c) <> None -> exists b, used (mg c) = Some b /\ GoodList (mg c) b).
  { intros Hne. destruct (used (mg c)) as [b|] eqn:E; [|tauto]. exists b. split; auto. eapply used_good; eauto. }
  unfold rt_desc. destruct (rt c) as [|b| |i|i|i| | |t| | |ps|ps|] eqn:Hr; cbn [rt_step].
  - exists (mg c), (RGot (cur (mg c))), []. rewrite app_nil_r. auto.
  - exists (rt_use b (mg c)), RBegin, []. rewrite app_nil_r. auto.
  - destruct (rt_pre_spec H (mg c)) as (F & T & Hh & _). cbv zeta.
    destruct (rt_must_restart H (rt_pre H (mg c))) eqn:Hmr.
    + exists (rt_pre H (mg c)), (RRestart 0), [EvPropagate; EvZero]. split; auto. split; auto. split; auto.
      split; [now apply same_of_heap|]. split; auto. left. split; auto.
      destruct (rt_pre_spec H (mg c)) as (_ & _ & _ & _ & Eph & _). unfold rt_must_restart in Hmr.
      apply andb_true_iff in Hmr. rewrite <- Eph. tauto.
    + eexists _, (RUpdate 0), [EvPropagate; EvZero]. split; [reflexivity|]. split; [exact T|].
      split; [eapply frame_trans; [exact F|apply frame_prev]|]. split; [apply same_of_heap; exact Hh|]. auto.
  - destruct (Hu R) as (b & Hb & G).
    unfold rt_list. rewrite Hb. cbn [bind]. destruct (Nat.ltb_spec i (List.length (lists (mg c) b))) as [Hi|Hi].
    + destruct (rt_nth_good (mg c) b i G Hb Hi) as (e & -> & E2 & E3). cbn [bind].
      destruct (isRunning (state_of (mg c) (e_ptr e))) eqn:Hrun.
      * destruct (stop_ctrl_spec H (e_ptr e) (mg c)) as (m' & -> & F & T & Sm & _ & _ & _ & Hh).
        { now apply (gl_state (mg c) b G). }
        exists m', (RRestarting i), [EvCb (e_ptr e) CbStopping]. split; auto. split; auto. split; auto.
        exists b. split; auto. left. exists e. split; auto. split; auto.
        change (runningb (mg c) (e_ptr e)) with (isRunning (state_of (mg c) (e_ptr e))). rewrite Hrun.
        split; auto. split; auto. now apply put1_of_heap.
      * exists (mg c), (RRestart (S i)), []. rewrite app_nil_r. split; auto. split; auto. split; [apply frame_refl|].
        exists b. split; auto. left. exists e. split; auto. split; auto.
        change (runningb (mg c) (e_ptr e)) with (isRunning (state_of (mg c) (e_ptr e))). rewrite Hrun.
        split; auto. split; auto. intros q. reflexivity.
    + eexists _, (RUpdate 0), []. split; [reflexivity|]. simpl. rewrite app_nil_r. split; auto.
      split; [apply frame_prev|]. exists b. split; auto. right. split; auto. split; auto. split; auto. intros q. reflexivity.
  - destruct R as (b & Hb & Hi). pose proof (used_good c b I Hb) as G.
    destruct (rt_nth_good (mg c) b i G Hb Hi) as (e & -> & E2 & E3). cbn [bind].
    destruct (start_ctrl_spec H (e_ptr e) (mg c)) as (m' & -> & F & T & Sm & _ & _ & _ & Hh).
    { now apply (gl_state (mg c) b G). }
    exists m', (RRestart (S i)), [EvCb (e_ptr e) CbStarting]. split; auto. split; auto. split; auto.
    exists b, e. repeat (split; [assumption || reflexivity|]). now apply put1_of_heap.
  - destruct (Hu R) as (b & Hb & G).
    unfold rt_list. rewrite Hb. cbn [bind]. destruct (Nat.ltb_spec i (List.length (lists (mg c) b))) as [Hi|Hi].
    + destruct (update_one_quiet H (mg c) b i G Hb Hi) as (e & m' & _ & E2 & E3 & -> & (F & _ & T & _) & Q). cbn [bind].
      eexists m', _, _. split; [reflexivity|]. split; [exact T|]. split; auto. split; auto.
      exists b. split; auto. left. exists e. auto.
    + destruct (rt_enforce_spec H (mg c)) as (F & T & Hh & _).
      eexists _, REffort, _. split; [reflexivity|]. split; [exact T|]. split; auto. split; [now apply same_of_heap|].
      exists b. split; auto.
  - destruct (rt_send_spec H (mg c)) as (F & T & Hh & _).
    eexists _, RPub1, _. split; [reflexivity|]. split; [exact T|]. split; auto. split; [now apply same_of_heap|]. auto.
  - destruct (now_spec H (mg c)) as (t & w & ->).
    destruct (mech_due H t (set_world w (mg c)) && free && l1).
    + eexists _, (RFill t), []. split; [reflexivity|]. simpl. rewrite app_nil_r. split; auto.
      split; [apply frame_world|]. split; [intros q; reflexivity|]. eauto.
    + eexists _, RPub2, []. split; [reflexivity|]. simpl. rewrite app_nil_r. split; auto.
      split; [apply frame_world|]. split; [intros q; reflexivity|]. eauto.
  - pose proof (fill_used c t I Hr) as Hb.
    destruct (fill_quiet H (mg c) t (cur (mg c)) Hpm Hb) as (m' & -> & (F & Sm & T & _) & Hh & Hv).
    { pose proof (co_mstats _ C) as X. apply (f_equal (@List.length _)) in X. rewrite !map_length in X.
      unfold loaded in X. lia. }
    cbn [bind]. eexists m', RPub2, _. split; [reflexivity|]. split; [exact T|]. split; auto. split; [now apply same_of_heap|].
    split; auto. split; auto. split; auto. split; [rewrite Sm; apply C|]. exact Hv.
  - destruct (publish_js_spec H l2 (mg c) Hpj) as (m' & ev & -> & F & Hh & _ & Sm & T & Ev). cbn [bind].
    exists m', RSwitch, ev. split; auto. split; auto. split; auto. split; [now apply same_of_heap|]. auto.
  - destruct (please (mg c)).
    + exists (mg c), (RStop (stop_req (mg c))), []. rewrite app_nil_r. auto.
    + exists (mg c), RIdle, []. rewrite app_nil_r. auto.
  - destruct R as (R0 & R1 & d & R2). destruct ps as [|p ps]; cbn [rt_step].
    + exists (mg c), (RStart (start_req (mg c))), []. rewrite app_nil_r. auto.
    + assert (Hin : In p (map e_ptr (loaded (mg c)))).
      { apply (co_reqs _ C). rewrite R2. apply in_or_app. right. apply in_or_app. right. now left. }
      destruct (stop_one_quiet H (mg c) p) as ((F & _ & T & _) & Hh).
      { now apply in_loaded_init. }
      eexists _, (RStop ps), _. split; [reflexivity|]. split; [exact T|]. split; auto. split; [now apply put1_of_heap|]. auto.
  - destruct R as (R0 & R1 & d & R2). destruct ps as [|p ps]; cbn [rt_step].
    + exists (mg c), REnd, []. rewrite app_nil_r. auto.
    + assert (Hin : In p (map e_ptr (loaded (mg c)))).
      { apply (co_reqs _ C). rewrite R2. apply in_or_app. left. apply in_or_app. right. now left. }
      destruct (start_one_quiet H (mg c) p) as ((F & _ & T & _) & Hh).
      { now apply in_loaded_init. }
      eexists _, (RStart ps), _. split; [reflexivity|]. split; [exact T|]. split; auto. split; [now apply put1_of_heap|]. auto.
  - eexists _, RIdle, [EvSwitchDone]. split; [reflexivity|]. auto.
Qed.

Lemma new_events_app (m m' : mgr) evs : trace m' = trace m ++ evs -> new_events m m' = evs.
Proof. intros E. unfold new_events. rewrite E. rewrite skipn_app, skipn_all, Nat.sub_diag. reflexivity. Qed.

Lemma do_rt_desc l1 l2 c c' : InvB c -> ~ stale_start c -> do_rt H l1 l2 c = Ok c' ->
  exists evs, trace (mg c') = trace (mg c) ++ evs /\ rt_desc c (mg c') (rt c') evs /\
    thr c' = thr c /\ ctl_lock c' = ctl_lock c /\ srv_lock c' = srv_lock c /\ rosok c' = rosok c /\
    (match rt c with RGot _ => snap c' = mg c' /\ cyc c' = [] | _ => snap c' = snap c /\ cyc c' = cyc c ++ evs end).
Proof.
  intros I Hst E. unfold do_rt in E.
  destruct (rt_effect (match pub_lock c with None => true | Some _ => false end) l1 l2 c I Hst) as (m' & pc' & evs & E' & T & D).
  rewrite E' in E. cbn [bind] in E. inversion E; subst; clear E. exists evs. simpl. split; auto. split; auto.
  rewrite (new_events_app _ _ _ T). do 4 (split; [reflexivity|]). destruct (rt c); auto.
Qed.

(* ------------------------------------------------------------------ what client threads add *)
Lemma calls_trace p cbs (m : mgr) : trace (calls H p cbs m) = trace m ++ map (EvCb p) cbs.
Proof. destruct (calls_spec H p cbs m) as (_&_&_&_&_&_&_&_&_&_&_&_&_&E). exact E. Qed.

Definition is_sw (t : tstate) : bool := match t with TSw _ _ | TSwb _ _ => true | _ => false end.
Definition swh (c : config) : bool := is_sw (holder c).
Definition neutral (e : event) : Prop := e = EvNewLoader \/ exists p b, e = EvCb p (CbInit b).

(** what a step not of the realtime thread leaves alone *)
Record client (c c' : config) : Prop := {
  cl_rt : rt c' = rt c;
  cl_used : used (mg c') = used (mg c);
  cl_prev : prev_halted (mg c') = prev_halted (mg c);
  cl_next : next (mg c) <= next (mg c');
  cl_heap : forall p, p < next (mg c) -> heap (mg c') p = heap (mg c) p;
  cl_lists : forall b, used (mg c) = Some b -> lists (mg c') b = lists (mg c) b /\ scheds (mg c') b = scheds (mg c) b;
  cl_snap : snap c' = snap c;
  cl_cyc : cyc c' = cyc c;
  cl_evs : exists evs, trace (mg c') = trace (mg c) ++ evs /\
    ((Forall neutral evs /\ please (mg c') = please (mg c) /\ start_req (mg c') = start_req (mg c) /\
      stop_req (mg c') = stop_req (mg c) /\ swh c' = swh c)
     \/ (evs = [EvRequest (stop_req (mg c')) (start_req (mg c'))] /\ please (mg c) = false /\ swh c = false /\
         please (mg c') = true /\ swh c' = true)
     \/ (evs = [EvSwitchReturn] /\ please (mg c) = false /\ swh c = true /\
         please (mg c') = false /\ start_req (mg c') = start_req (mg c) /\
      stop_req (mg c') = stop_req (mg c) /\ swh c' = false)) }.

Lemma client_same c c' :
  mg c' = mg c -> rt c' = rt c -> snap c' = snap c -> cyc c' = cyc c -> swh c' = swh c -> client c c'.
Proof.
  intros E1 E2 E3 E4 E5. constructor; rewrite ?E1; auto. exists []. rewrite app_nil_r. split; auto.
  left. rewrite E5. auto.
Qed.

(** threads outside the lock do not influence [swh] *)
Lemma swh_other c k t sl pl :
  crit t = crit (thr c k) -> is_sw t = is_sw (thr c k) -> forall m' ro sn cy,
  swh (mkConfig m' (rt c) (set_thr (thr c) k t) sl (ctl_lock c) pl ro sn cy) = swh c.
Proof.
  intros H1 H2 m' ro sn cy. unfold swh, holder. simpl. destruct (ctl_lock c) as [j|]; auto.
  unfold set_thr. destruct (Nat.eqb_spec j k) as [->|]; auto.
Qed.

Lemma swh_k c k : InvB c -> crit (thr c k) = true -> swh c = is_sw (thr c k).
Proof. intros I Hc. unfold swh. now rewrite (holder_eq c k I Hc). Qed.

Lemma bframe_client c k t m' sl cl pl ro :
  bframe (mg c) m' -> used_cur (mg c) -> swh c = false ->
  (cl = None \/ (cl = ctl_lock c /\ cl = Some k /\ is_sw t = false)) ->
  client c (mkConfig m' (rt c) (set_thr (thr c) k t) sl cl pl ro (snap c) (cyc c)).
Proof.
  intros B Hu Hs Hc. destruct B. constructor; simpl; auto.
  - intros b Hb. destruct Hu as [X|X]; [congruence|]. rewrite X in Hb. inversion Hb; subst. auto.
  - destruct bf_trace as (evs & -> & Hf). exists evs. split; auto. left. split.
    + eapply Forall_impl; [|exact Hf]. intros e (p & b & ->). right. eauto.
    + repeat (split; auto). rewrite Hs. unfold swh, holder. simpl. destruct Hc as [->|(-> & -> & Ht)]; auto.
      now rewrite set_thr_same.
Qed.

Lemma th_client k c c' : InvB c -> rosok c = true -> th_step H k (thr c k) c = Some (Ok c') -> client c c'.
Proof.
  intros I Hros E.
  assert (Hhold : crit (thr c k) = true -> hold_ok (mg c) (thr c k)).
  { intros X. rewrite <- (holder_eq c k I X). apply I. }
  assert (Hsw : crit (thr c k) = true -> swh c = is_sw (thr c k)) by (apply swh_k; auto).
  assert (Hctl : crit (thr c k) = true -> ctl_lock c = Some k) by (intros X; now apply (ib_ctl c I)).
  pose proof (ib_core c I) as C. pose proof (ib_rt c I) as R.
  destruct (thr c k) as [|pr|srv pr|srv cl kk|srv cl kk|srv cl kk|srv cl kk|srv cl kk|srv cl kk|srv cl kk|srv cl kk|srv cl kk|srv kk|srv kk] eqn:Ht;
    cbn [th_step] in E.
  - discriminate.
  - destruct (srv_lock c) eqn:Hs; [discriminate|]. inversion E; subst; clear E.
    apply client_same; auto. apply (swh_other c k); now rewrite Ht.
  - assert (Hm : forall t, crit t = false -> is_sw t = false -> client c (with_thr k t c)).
    { intros t H1 H2. apply client_same; auto. apply (swh_other c k); now rewrite Ht. }
    destruct pr.
    + inversion E; subst; clear E. destruct srv; auto. apply client_same; auto. apply (swh_other c k); now rewrite Ht.
    + discriminate.
    + inversion E; subst; auto.
    + destruct (ctl_lock c) eqn:?; inversion E; subst. auto.
    + destruct (ctl_lock c) eqn:?; inversion E; subst. auto.
    + inversion E; subst. auto.
    + inversion E; subst. auto.
    + inversion E; subst; clear E. constructor; simpl; auto. exists [EvNewLoader]. split; auto.
      left. split; [repeat constructor|]. repeat (split; auto). apply (swh_other c k); now rewrite Ht.
    + inversion E; subst. auto.
  - destruct (ctl_lock c) eqn:Hc; [discriminate|]. inversion E; subst; clear E. apply client_same; auto.
    unfold swh, holder, with_thr, with_ctl. simpl. rewrite Hc, set_thr_same. destruct cl; reflexivity.
  - inversion E; subst; clear E. apply client_same; auto. apply (swh_other c k); rewrite Ht; destruct (rosok c && free_in_use (mg c)); auto.
  - rewrite Hros in E. inversion E; subst; clear E. apply client_same; auto. apply (swh_other c k); now rewrite Ht.
  - destruct (Hhold eq_refl) as (Hp & Hu). pose proof (core_inv (mg c) C Hu) as Iv.
    destruct (co_idle _ C Hp) as [Hr1 Hr2]. specialize (Hsw eq_refl). simpl in Hsw.
    destruct cl as [env n|n|a b s]; cbn [body] in E.
    + pose proof (load_body_frame H env n (mg c)) as B.
      destruct (load_body H env n (mg c)) as [m'|m'|m'|]; try discriminate; inversion E; subst; clear E;
        (apply (bframe_client c k); auto).
    + pose proof (unload_body_frame n (mg c)) as B.
      destruct (unload_body n (mg c)) as [m'|m'|m'|]; try discriminate; inversion E; subst; clear E; destruct B as (B & _);
        (apply (bframe_client c k); auto).
    + pose proof (switch_body_spec a b s (mg c)) as Sw.
      destruct (switch_body a b s (mg c)) as [m'|m'|m'|]; try tauto.
      * inversion E; subst; clear E. rewrite (Sw Hp Hr1 Hr2). apply client_same; auto.
      * destruct Sw as (ps & qs & -> & Hin). inversion E; subst; clear E. constructor; simpl; auto.
        eexists. split; [reflexivity|]. right. left. repeat (split; auto).
        unfold swh, holder. simpl. rewrite (Hctl eq_refl), set_thr_same. reflexivity.
  - destruct (pub_lock c) eqn:Hpl; [discriminate|]. inversion E; subst; clear E. apply client_same; auto.
    apply (swh_other c k); now rewrite Ht.
  - destruct (Hhold eq_refl) as (Hp & Hu & G & S). inversion E; subst; clear E. constructor; simpl; auto.
    exists []. rewrite app_nil_r. split; auto. left. repeat (split; auto). apply (swh_other c k); now rewrite Ht.
  - inversion E; subst; clear E. apply client_same; auto. apply (swh_other c k); rewrite Ht; destruct (rosok c && former_in_use (mg c)); auto.
  - rewrite Hros in E. inversion E; subst; clear E. apply client_same; auto. apply (swh_other c k); now rewrite Ht.
  - destruct (Hhold eq_refl) as (Hp & Hu). specialize (Hsw eq_refl). simpl in Hsw. inversion E; subst; clear E. constructor; simpl; auto.
    + intros b Hb. destruct Hu as [X|X]; [congruence|]. rewrite X in Hb. inversion Hb; subst. rewrite negb_upd. auto.
    + exists []. rewrite app_nil_r. split; auto. left. repeat (split; auto).
  - rewrite Hros in E. simpl in E. specialize (Hsw eq_refl). simpl in Hsw.
    destruct (please (mg c)) eqn:Hp; inversion E; subst; clear E.
    + apply client_same; auto. apply (swh_other c k); now rewrite Ht.
    + constructor; simpl; auto. exists [EvSwitchReturn]. split; auto. right. right. repeat (split; auto).
  - rewrite Hros in E. inversion E; subst; clear E. apply client_same; auto. apply (swh_other c k); now rewrite Ht.
Qed.

(** every step is a realtime step or a client step *)
Lemma step_cases l c c' : InvB c -> rosok c = true -> bstep H l c = Some (Ok c') -> rosok c' = true ->
  (exists a b, l = LRt a b /\ do_rt H a b c = Ok c') \/ client c c'.
Proof.
  intros I Hr E Hr'. destruct l as [a b|k|k srv pr| | | |f]; cbn [bstep] in E.
  - left. exists a, b. inversion E; auto.
  - right. eapply th_client; eauto.
  - right. destruct (thr c k) eqn:Ht; inversion E; subst; clear E. apply client_same; auto.
    apply (swh_other c k); rewrite Ht; destruct srv; auto.
  - right. destruct (pub_lock c) eqn:Hp; inversion E; subst; clear E. now apply client_same.
  - right. destruct (pub_lock c) as [[| |]|] eqn:Hp; inversion E; subst; clear E. now apply client_same.
  - inversion E; subst. discriminate.
  - right. inversion E; subst; clear E. constructor; simpl; auto. exists []. rewrite app_nil_r. split; auto. left.
    repeat (split; auto).
Qed.
End CTrace.
