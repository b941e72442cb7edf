(** C16, C17 (under concurrency), C21-C29: the realtime thread against the service threads. *)
From Coq Require Import List String Arith Bool ZArith Lia Sorting.Permutation.
From Verif.Model Require Import Base Scheduler Controller Manager ManagerConc.
From Verif.Spec Require Import SchedulerSpec ManagerSpec ConcSpec LinSpec.
From Verif.Proofs Require Import SchedulerProofs ManagerProofs ManagerInv ManagerOps ConcBase ConcInv ConcTrace
  ConcHist ConcCycle ConcProgress ConcLin.
From Verif.Props Require Import SchedulerProps ManagerProps.
Import ListNotations.
Open Scope string_scope.
Open Scope list_scope.

(* ------------------------------------------------------------------ executing interleavings *)
Definition staleb {W} (c : config W) : bool :=
  match used (mg c), rt c with None, RGot b => negb (Bool.eqb b (cur (mg c))) | _, _ => false end.
Fixpoint srun {W} (H : hooks W) (ls : list (label W)) (c : config W) : option (config W) :=
  match ls with
  | [] => Some c
  | l :: ls' =>
      match l, staleb c with
      | LRt _ _, true => None
      | _, _ => match bstep H l c with Some (Ok c') => srun H ls' c' | _ => None end
      end
  end.
Lemma staleb_spec {W} (c : config W) : staleb c = false -> ~ stale_start c.
Proof.
  unfold staleb, stale_start. intros E (Hu & b & Hr & Hb). rewrite Hu, Hr in E.
  apply negb_false_iff in E. apply Bool.eqb_prop in E. auto.
Qed.
Lemma srun_steady {W} (H : hooks W) ls : forall c c', srun H ls c = Some c' ->
  forall c0 ls0, steady H c0 ls0 c -> steady H c0 (ls0 ++ ls) c'.
Proof.
  induction ls as [|l ls IH]; intros c c' E c0 ls0 S; simpl in E.
  - inversion E; subst. now rewrite app_nil_r.
  - replace (ls0 ++ l :: ls) with ((ls0 ++ [l]) ++ ls) by (rewrite <- app_assoc; reflexivity).
    destruct (staleb c) eqn:Es.
    + destruct l; try discriminate; (destruct (bstep H _ c) as [[c1| | |]|] eqn:Eb; try discriminate;
        eapply IH; [exact E|]; eapply steady_snoc; eauto; discriminate).
    + assert (X : match bstep H l c with Some (Ok c') => srun H ls c' | _ => None end = Some c').
      { destruct l; exact E. }
      destruct (bstep H l c) as [[c1| | |]|] eqn:Eb; try discriminate.
      eapply IH; [exact X|]. eapply steady_snoc; eauto. intros _ _ _. now apply staleb_spec.
Qed.
Lemma srun_live {W} (H : hooks W) m ls c : reachable H m -> please m = false ->
  srun H ls (quiet m) = Some c -> rosok c = true -> live H c.
Proof.
  intros Hr Hp E Ho. exists m, ls. repeat (split; auto).
  apply (srun_steady H ls _ _ E (quiet m) []). constructor.
Qed.
Definition reached {W} (H : hooks W) (ls : list (label W)) (m : mgr W) : config W :=
  match srun H ls (quiet m) with Some c => c | None => quiet m end.
Lemma reached_live {W} (H : hooks W) m ls : reachable H m -> please m = false ->
  match srun H ls (quiet m) with Some c => rosok c | None => true end = true -> live H (reached H ls m).
Proof.
  intros Hr Hp E. unfold reached. destruct (srun H ls (quiet m)) as [c|] eqn:S.
  - eapply srun_live; eauto.
  - exists m, []. repeat (split; auto). constructor.
Qed.
Lemma ex1_idle : please ex1 = false.
Proof. vm_compute. reflexivity. Qed.
Ltac ex_live := apply reached_live; [exact ex1_reachable|exact ex1_idle|vm_compute; reflexivity].

Fixpoint times {A} (n : nat) (l : list A) : list A := match n with 0 => [] | S n => l ++ times n l end.
Definition rts (n : nat) : list (label exW) := times n [LRt true true].
Definition ths (k n : nat) : list (label exW) := times n [LTh k].

Lemma switching_owes es : forall s s', observe s es = Some s' ->
  (fst s = Switching -> exists t, snd s = Owes t) -> fst s' = Switching -> exists t, snd s' = Owes t.
Proof.
  induction es as [|e es IH]; intros [ph o] s' E Hs; cbn [observe] in E; [inversion E; subst; exact Hs|].
  destruct (obs (ph, o) e) as [s1|] eqn:Eo; [|discriminate]. apply (IH s1 s' E). clear IH E.
  intros Hf. destruct s1 as [ph1 o1]. simpl in *. subst ph1.
  destruct e as [p []| | | | | | | | | | |]; simpl in Eo; try discriminate;
    destruct ph; simpl in Eo; try discriminate; destruct o as [|[|x t]|]; simpl in Eo; try discriminate;
    try (destruct (cb_eqb _ _); try discriminate); inversion Eo; subst; eauto;
    (destruct (Hs eq_refl) as (t0 & X); discriminate X).
Qed.

(* the realtime thread only touches states, statistics, requests, the world *)
Section RtKeeps.
Context {W : Type} (H : hooks W).
Definition keeps (m m' : mgr W) : Prop :=
  lists m' = lists m /\ scheds m' = scheds m /\ cur m' = cur m /\ next m' = next m.
Lemma keeps_refl m : keeps m m.
Proof. repeat split. Qed.
Lemma keeps_trans a b c : keeps a b -> keeps b c -> keeps a c.
Proof. intros (A1&A2&A3&A4) (B1&B2&B3&B4). repeat split; congruence. Qed.
Lemma keeps_now m : keeps m (snd (now H m)).
Proof. unfold now. destruct (h_now H (world m)). repeat split. Qed.
Lemma keeps_calls p cbs m : keeps m (calls H p cbs m).
Proof.
  unfold calls. revert m. induction cbs as [|cb cbs IH]; intros m; simpl; [apply keeps_refl|].
  eapply keeps_trans; [|apply IH]. repeat split.
Qed.
Lemma keeps_stop p m : keeps m (snd (stop_ctrl H p m)).
Proof.
  unfold stop_ctrl. destruct (stopRequest (state_of m p)) as [[b cbs] s]. simpl.
  apply (keeps_trans _ (calls H p cbs m)); [apply keeps_calls|repeat split].
Qed.
Lemma keeps_start p m : keeps m (snd (start_ctrl H p m)).
Proof.
  unfold start_ctrl. destruct (startRequest (state_of m p)) as [[b cbs] s]. simpl.
  apply (keeps_trans _ (calls H p cbs m)); [apply keeps_calls|repeat split].
Qed.
Lemma keeps_updctrl p m : keeps m (update_ctrl H p m).
Proof.
  unfold update_ctrl. destruct (updateRequest (state_of m p)) as [cbs s].
  apply (keeps_trans _ (calls H p cbs m)); [apply keeps_calls|repeat split].
Qed.
Lemma keeps_pre m : keeps m (rt_pre H m).
Proof.
  unfold rt_pre. pose proof (keeps_now m) as A. destruct (now H m) as [t m1]. simpl in A.
  match goal with |- context [now H ?x] => pose proof (keeps_now x) as B; destruct (now H x) as [t2 m2] end. simpl in B.
  eapply keeps_trans; [exact A|]. eapply keeps_trans; [|exact B]. repeat split.
Qed.
Lemma keeps_enforce m : keeps m (rt_enforce H m).
Proof.
  unfold rt_enforce. pose proof (keeps_now m) as A. destruct (now H m) as [t m1]. simpl in A.
  eapply keeps_trans; [exact A|]. repeat split.
Qed.
Lemma keeps_send m : keeps m (rt_send H m).
Proof.
  unfold rt_send. cbv zeta.
  match goal with |- context [now H ?x] => pose proof (keeps_now x) as B; destruct (now H x) as [t2 m2] end. simpl in B.
  eapply keeps_trans; [|exact B]. repeat split.
Qed.
Lemma keeps_upd m i m' : rt_update_one H m i = Ok m' -> keeps m m'.
Proof.
  unfold rt_update_one. destruct (rt_nth m i) as [e| | |]; cbn [bind]; try discriminate.
  pose proof (keeps_now m) as A. destruct (now H m) as [t m1]. simpl in A.
  pose proof (keeps_updctrl (e_ptr e) m1) as B. pose proof (keeps_now (update_ctrl H (e_ptr e) m1)) as C.
  destruct (now H (update_ctrl H (e_ptr e) m1)) as [t2 m2]. simpl in C. intros E. inversion E.
  eapply keeps_trans; [exact A|]. eapply keeps_trans; [exact B|]. eapply keeps_trans; [exact C|]. repeat split.
Qed.
Lemma keeps_fill t m m' : rt_fill_mech H t m = Ok m' -> keeps m m'.
Proof.
  unfold rt_fill_mech. destruct (catch_up _ _ _ _) as [last| | |]; cbn [bind]; try discriminate.
  destruct (rt_list _) as [l| | |]; cbn [bind]; try discriminate.
  destruct (fill_stats _ _ _ _ _) as [out| | |]; cbn [bind]; try discriminate.
  match goal with |- context [now H ?x] => pose proof (keeps_now x) as B; destruct (now H x) as [t2 m2] end. simpl in B.
  intros E. inversion E. eapply keeps_trans; [|eapply keeps_trans; [exact B|repeat split]]. repeat split.
Qed.
Lemma keeps_pubjs l m m' : publishJointState H l m = Ok m' -> keeps m m'.
Proof.
  unfold publishJointState. pose proof (keeps_now m) as A. destruct (now H m) as [t m1]. simpl in A.
  destruct (_ <? _)%Z; [|intros E; inversion E; subst; exact A]. destruct l; [|intros E; inversion E; subst; exact A].
  destruct (catch_up _ _ _ _) as [last| | |]; cbn [bind]; try discriminate.
  match goal with |- context [now H ?x] => pose proof (keeps_now x) as B; destruct (now H x) as [t2 m2] end. simpl in B.
  intros E. inversion E. eapply keeps_trans; [exact A|]. eapply keeps_trans; [|eapply keeps_trans; [exact B|repeat split]]. repeat split.
Qed.
Lemma rt_step_lists free a b pc m m' pc' : rt_step H free a b pc m = Ok (m', pc') -> keeps m m'.
Proof.
  intros E. destruct pc as [|x| |i|i|i| | |t| | |ps|ps|]; cbn [rt_step] in E.
  - inversion E; subst. apply keeps_refl.
  - inversion E; subst. repeat split.
  - pose proof (keeps_pre m) as A. cbv zeta in E. destruct (rt_must_restart H (rt_pre H m)); inversion E; subst; exact A.

  - destruct (rt_list m) as [l| | |]; cbn [bind] in E; try discriminate. destruct (Nat.ltb i (List.length l)).
    + destruct (rt_nth m i) as [e| | |]; cbn [bind] in E; try discriminate. destruct (isRunning _).
      * pose proof (keeps_stop (e_ptr e) m) as A. destruct (stop_ctrl H (e_ptr e) m). simpl in A. inversion E; subst. exact A.
      * inversion E; subst. apply keeps_refl.
    + inversion E; subst. repeat split.
  - destruct (rt_nth m i) as [e| | |]; cbn [bind] in E; try discriminate.
    pose proof (keeps_start (e_ptr e) m) as A. destruct (start_ctrl H (e_ptr e) m). simpl in A. inversion E; subst. exact A.
  - destruct (rt_list m) as [l| | |]; cbn [bind] in E; try discriminate. destruct (Nat.ltb i (List.length l)).
    + destruct (rt_update_one H m i) as [m1| | |] eqn:Eu; cbn [bind] in E; try discriminate. inversion E; subst.
      eapply keeps_upd; eauto.
    + inversion E; subst. apply keeps_enforce.
  - inversion E; subst. apply keeps_send.
  - pose proof (keeps_now m) as A. destruct (now H m) as [t m1]. simpl in A.
    destruct (mech_due H t m1 && free && a); inversion E; subst; exact A.
  - destruct (rt_fill_mech H t m) as [m1| | |] eqn:Eu; cbn [bind] in E; try discriminate. inversion E; subst.
    eapply keeps_fill; eauto.
  - destruct (publishJointState H b m) as [m1| | |] eqn:Eu; cbn [bind] in E; try discriminate. inversion E; subst.
    eapply keeps_pubjs; eauto.
  - destruct (please m); inversion E; subst; apply keeps_refl.
  - destruct ps as [|p ps]; inversion E; subst; [apply keeps_refl|]. unfold rt_stop_one.
    pose proof (keeps_stop p m) as A. destruct (stop_ctrl H p m) as [r m1]. simpl in A. destruct r; auto.
  - destruct ps as [|p ps]; inversion E; subst; [apply keeps_refl|]. unfold rt_start_one.
    pose proof (keeps_start p m) as A. destruct (start_ctrl H p m) as [r m1]. simpl in A. destruct r; auto.
  - inversion E; subst. repeat split.
Qed.
End RtKeeps.

Section Theorems.
Context {W : Type} (H : hooks W) (HP : positive_periods H).
Notation mgr := (mgr W).
Notation config := (config W).
Let Hpm := proj1 HP.
Let Hpj := proj2 HP.

(* ------------------------------------------------------------------ C16 *)
(** In the history of any execution, between the acceptance of a switch (EvRequest) and its return
    (EvSwitchReturn) the realtime thread executes exactly one block of the requested stops, then the
    requested starts, in request order; immediately before the block it had sent the efforts of a cycle
    (or published), and the next thing it does is to begin a new cycle. *)
Theorem C16_switch_atomic :
  forall (m : mgr) ls c, reachable H m -> please m = false -> steady H (quiet m) ls c -> rosok c = true ->
  exists h, trace (mg c) = trace m ++ h /\
  forall a stops starts b d,
    h = a ++ EvRequest stops starts :: b ++ EvSwitchReturn :: d -> ~ In EvSwitchReturn b ->
    exists b1 b2,
      filter is_rt b = b1 ++ (stop_evs stops ++ start_evs starts ++ [EvSwitchDone]) ++ b2 /\
      (exists pre x, filter is_rt a ++ b1 = pre ++ [x] /\ is_sent x = true) /\
      (b2 = [] \/ exists b3, b2 = EvPropagate :: b3) /\
      ~ In EvSwitchDone (b1 ++ b2).
Proof.
  intros m ls c Hr Hp S Ho.
  destruct (history_accepted H Hpm Hpj m ls c) as (h & s & T & O & _); auto.
  { apply (reachable_inv H); auto. }
  exists h. split; auto. intros a stops starts b d -> Hn.
  rewrite observe_app in O. destruct (observe (Between, Nothing) a) as [[ph o]|] eqn:Ea; [|discriminate].
  cbn [observe] in O. destruct (obs (ph, o) (EvRequest stops starts)) as [[ph1 o1]|] eqn:Eq; [|discriminate].
  simpl in Eq. destruct o; try discriminate. inversion Eq; subst ph1 o1; clear Eq.
  rewrite observe_app in O. destruct (observe (ph, Owes _) b) as [[ph2 o2]|] eqn:Eb; [|discriminate].
  cbn [observe] in O. destruct (obs (ph2, o2) EvSwitchReturn) as [s3|] eqn:Er; [|discriminate].
  simpl in Er. destruct o2; try discriminate. clear O Er s3.
  destruct (block b _ ph ph2 Eb Hn) as (x1 & x2 & r & -> & E2 & E1 & N1 & E3).
  { intros ->. pose proof (switching_owes a _ _ Ea) as X. simpl in X.
    destruct X as (t & X); auto; [discriminate|]. discriminate. }
  assert (Nr : ~ In EvSwitchReturn r) by (intros X; apply Hn; apply in_or_app; right; apply in_or_app; right; right; exact X).
  destruct (after_block r ph2 E3 Nr) as (N3 & B3).
  exists (filter is_rt x1), (filter is_rt r).
  split; [|split; [|split]].
  - rewrite !filter_app. simpl. rewrite E2. now rewrite <- !app_assoc.
  - assert (X : observe (Between, Nothing) (a ++ EvRequest stops starts :: x1) = Some (Sent, Owes (stop_evs stops ++ start_evs starts))).
    { rewrite observe_app, Ea. simpl. exact E1. }
    destruct (sent_last _ _ _ X) as [(_ & Y)|(pre & x & Y & Z)]; [discriminate|].
    exists pre, x. split; auto. rewrite filter_app in Y. exact Y.
  - destruct B3 as [->|(r' & ->)]; eauto.
  - intros X. apply in_app_or in X. destruct X as [X|X]; apply filter_In in X; tauto.
Qed.

(* ------------------------------------------------------------------ C17 *)
(** Whatever the service threads do meanwhile, each cycle of the realtime thread, from the moment it has
    chosen its list (state [snap c]), reads the hardware, zeroes commands, updates exactly the controllers
    running at that moment, each once, in schedule order, enforces safety, sends efforts, publishes, and
    possibly executes one switch. *)
Theorem C17_cycle_events_concurrent :
  forall c : config, live H c -> rt c = RIdle -> cyc c = [] \/ full_cycle (snap c) (cyc c).
Proof.
  intros c (m & ls & Hr & Hp & S & Ho) Hi.
  pose proof (cycle_history H Hpm Hpj m ls c (inv_of H HP m Hr) Hp S Ho) as K. unfold cyc_ok in K. now rewrite Hi in K.
Qed.

(* ------------------------------------------------------------------ C21 *)
Theorem C21_no_data_race : forall c : config, live H c -> ~ list_race c /\ ~ request_race c /\ ~ message_race c.
Proof.
  intros c L. pose proof (live_inv H Hpm Hpj c L) as I.
  assert (Hhold : forall k, crit (thr c k) = true -> hold_ok (mg c) (thr c k)).
  { intros k X. rewrite <- (holder_eq c k I X). apply I. }
  split; [|split].
  - intros (k & b & Hw & Hu).
    assert (Hused : used (mg c) = Some b). { unfold rt_uses in Hu. destruct (rt c); try discriminate; exact Hu. }
    destruct (thr c k) as [|pr|srv pr|srv cl kk|srv cl kk|srv cl kk|srv cl kk|srv cl kk|srv cl kk|srv cl kk|srv cl kk|srv cl kk|srv kk|srv kk] eqn:Ht;
      try discriminate.
    + assert (X : hold_ok (mg c) (TBody srv cl kk)) by (rewrite <- Ht; apply Hhold; now rewrite Ht).
      destruct X as (_ & X). destruct cl; inversion Hw; subst b; destruct X as [X|X]; rewrite Hused in X; try discriminate;
        inversion X as [Y]; unfold free_list in Y; destruct (cur (mg c)); discriminate.
    + assert (X : hold_ok (mg c) (TClear srv cl kk)) by (rewrite <- Ht; apply Hhold; now rewrite Ht).
      destruct X as (_ & X). inversion Hw; subst b; destruct X as [X|X]; rewrite Hused in X; try discriminate.
      inversion X as [Y]. destruct (cur (mg c)); discriminate.
  - intros ((ps & Hr) & k & srv & a & b & s & kk & Ht).
    assert (X : hold_ok (mg c) (TBody srv (CSwitch a b s) kk)) by (rewrite <- Ht; apply Hhold; now rewrite Ht).
    destruct X as (Hp & _). pose proof (ib_rt c I) as R.
    destruct Hr as [Hr|[Hr|Hr]]; rewrite Hr in R; simpl in R.
    + destruct R as (_ & R & _). congruence.
    + destruct R as (_ & R & _). congruence.
    + destruct R as (_ & R). congruence.
  - intros ((t & Hr) & k & srv & cl & kk & Ht).
    assert (X : pub_lock c = Some ORt) by (apply (ib_fill c I); eauto).
    assert (Y : pub_lock c = Some (OThread k)) by (apply (ib_pub c I); now rewrite Ht). congruence.
Qed.

(** No memory error either: in steady state no step of any thread is undefined behaviour, and the realtime
    thread and the calls never abort or hang (a client program may abort itself, [PAbort]). *)
Theorem C21_no_undefined_behaviour :
  forall l (c : config) r, live H c -> bstep H l c = Some r -> (forall a b, l = LRt a b -> ~ stale_start c) ->
  match r with
  | Ok _ => True
  | Abort => exists k srv, l = LTh k /\ thr c k = TProg srv PAbort
  | UB | Hang => False
  end.
Proof.
  intros l c r L E Hst.
  pose proof (bstep_inv H l c r Hpm Hpj (live_inv H Hpm Hpj c L) (live_ros H c L) E Hst) as X.
  destruct r; auto.
Qed.

(* ------------------------------------------------------------------ C23 *)
Theorem C23_never_blocks : forall a b (c : config), live H c -> exists c', bstep H (LRt a b) c = Some (Ok c').
Proof. intros a b c. now apply never_blocked. Qed.

(** In any execution from the moment the realtime thread has chosen its list, as long as its cycle has not
    ended, it has made at most [10 + 3*controllers + requests] steps, however many steps others made. *)
Theorem C23_cycle_bounded :
  forall (c0 : config) b n c,
  live H c0 -> rt c0 = RBegin -> used (mg c0) = Some b ->
  segment H (fun c => rt c <> RIdle) is_rt_step c0 n c -> rosok c = true ->
  n <= 10 + 3 * List.length (lists (mg c0) b) + List.length (stop_req (mg c)) + List.length (start_req (mg c)).
Proof. exact (cycle_bounded H Hpm Hpj). Qed.

(* ------------------------------------------------------------------ C24 *)
Theorem C24_statistics_match :
  forall a b (c c' : config) t, live H c -> rt c = RFill t -> bstep H (LRt a b) c = Some (Ok c') ->
  let msg := mstats (mg c') in
  new_events (mg c) (mg c') = [EvPubMech msg] /\
  used (mg c) = Some (cur (mg c)) /\
  map cs_name msg = loaded_names (mg c) /\
  (forall j e s, nth_error (loaded (mg c)) j = Some e -> nth_error msg j = Some s ->
     cs_stamp s = t /\ cs_running s = runningb (mg c) (e_ptr e) /\
     cs_samples s = st_samples (co_stats (heap (mg c) (e_ptr e))) /\
     cs_overruns s = st_overruns (co_stats (heap (mg c) (e_ptr e))) /\
     cs_last_overrun s = st_last_overrun (co_stats (heap (mg c) (e_ptr e)))).
Proof.
  intros a b c c' t L Hr E msg. pose proof (live_inv H Hpm Hpj c L) as I. cbn [bstep] in E. inversion E as [E'].
  assert (Hst : ~ stale_start c) by (intros (_ & x & X & _); congruence).
  destruct (do_rt_desc H Hpm Hpj a b c c' I Hst E') as (evs & T & D & _).
  unfold rt_desc in D. rewrite Hr in D. destruct D as (_ & _ & _ & -> & Hu & Hn & Hv).
  rewrite (new_events_app _ _ _ T). auto.
Qed.

(* ------------------------------------------------------------------ C25 *)
(** The wait for the list that is about to be overwritten (the first wait of load and unload) never waits. *)
Theorem C25_first_wait_immediate :
  forall k (c c' : config) srv cl kk, live H c -> thr c k = TWait1 srv cl kk -> bstep H (LTh k) c = Some (Ok c') ->
    thr c' k = TBody srv cl kk.
Proof.
  intros k c c' srv cl kk L Ht E. pose proof (live_inv H Hpm Hpj c L) as I.
  assert (X : hold_ok (mg c) (TWait1 srv cl kk)). { rewrite <- Ht, <- (holder_eq c k I); [apply I|now rewrite Ht]. }
  destruct X as (_ & Hu & _). cbn [bstep] in E. rewrite Ht in E. cbn [th_step] in E.
  rewrite (flip_used_false _ Hu), andb_false_r in E. inversion E; subst. simpl. apply set_thr_same.
Qed.

(** While thread [k] is waiting for the old list, once the realtime thread has taken a list twice (two
    cycle starts), the wait condition is false, and it stays so: k's next step leaves the loop. *)
Theorem C25_second_wait_two_cycles :
  forall k (c0 : config) n c, live H c0 -> waits_for_list k c0 ->
  segment H (waits_for_list k) takes_list c0 n c -> rosok c = true -> 2 <= n ->
  forall srv cl kk c', thr c k = TWait2 srv cl kk -> bstep H (LTh k) c = Some (Ok c') -> thr c' k = TClear srv cl kk.
Proof.
  intros k c0 n c L Hw S Ho Hn srv cl kk c' Ht E.
  pose proof (list_handover H Hpm Hpj k c0 n c L Hw S Ho Hn) as X.
  cbn [bstep] in E. rewrite Ht in E. cbn [th_step] in E. rewrite X, andb_false_r in E. inversion E; subst. simpl. apply set_thr_same.
Qed.

(** While thread [k] waits for its switch, once the realtime thread has completed a cycle, it is done. *)
Theorem C25_switch_wait_one_cycle :
  forall k (c0 : config) n c, live H c0 -> waits_for_switch k c0 ->
  segment H (waits_for_switch k) ends_cycle c0 n c -> rosok c = true -> 1 <= n ->
  forall srv kk c', thr c k = TSw srv kk -> bstep H (LTh k) c = Some (Ok c') -> thr c' k = TProg srv (kk (Returned true)).
Proof.
  intros k c0 n c L Hw S Ho Hn srv kk c' Ht E.
  pose proof (switch_wait H Hpm Hpj k c0 n c L Hw S Ho Hn) as X.
  cbn [bstep] in E. rewrite Ht in E. cbn [th_step] in E. rewrite X, andb_false_r in E. inversion E; subst. simpl. apply set_thr_same.
Qed.

(** A thread that cannot step waits for a lock, and then some other thread can step, or the publication
    lock is held by the realtime thread (which can always step) or by the publisher's own thread. *)
Theorem C25_no_deadlock :
  forall k (c : config), live H c -> thr c k <> TIdle -> bstep H (LTh k) c = None ->
  (exists j r, j <> k /\ bstep H (LTh j) c = Some r) \/ pub_lock c = Some ORt \/ pub_lock c = Some OPublisher.
Proof. exact (no_deadlock H Hpm Hpj). Qed.

(* ------------------------------------------------------------------ C26 *)
(** Every callback the realtime thread makes is on a controller that exists, is initialised and is listed. *)
Theorem C26_callbacks_on_live_controllers :
  forall a b (c c' : config) p cb, live H c -> ~ stale_start c -> bstep H (LRt a b) c = Some (Ok c') ->
  In (EvCb p cb) (new_events (mg c) (mg c')) -> alive (mg c) p /\ state_of (mg c) p <> CONSTRUCTED.
Proof.
  intros a b c c' p cb L Hst E Hin. pose proof (live_inv H Hpm Hpj c L) as I. cbn [bstep] in E. inversion E as [E'].
  destruct (do_rt_desc H Hpm Hpj a b c c' I Hst E') as (evs & T & D & _).
  rewrite (new_events_app _ _ _ T) in Hin. unfold rt_desc in D.
  assert (Hl : forall x e, used (mg c) = Some x -> In e (lists (mg c) x) -> p = e_ptr e -> alive (mg c) p /\ state_of (mg c) p <> CONSTRUCTED).
  { intros x e Hu He ->. pose proof (used_good c x I Hu) as G. split; [exists x, e; auto|]. now apply (gl_state (mg c) x G). }
  assert (Hq : forall q, In q (map e_ptr (loaded (mg c))) -> p = q -> alive (mg c) p /\ state_of (mg c) p <> CONSTRUCTED).
  { intros q Hi ->. split; [|apply in_loaded_init; auto; apply I]. apply in_map_iff in Hi. destruct Hi as (e & <- & He).
    exists (cur (mg c)), e. auto. }
  destruct (rt c) as [|x| |i|i|i| | |t| | |ps|ps|].
  - destruct D as (_ & _ & ->). destruct Hin.
  - destruct D as (_ & _ & ->). destruct Hin.
  - destruct D as (_ & _ & -> & _). destruct Hin as [X|[X|[]]]; discriminate.
  - destruct D as (_ & b0 & Hb & [(e & He & Hi & D)|(_ & -> & _)]); [|destruct Hin].
    destruct (runningb (mg c) (e_ptr e)); destruct D as (-> & _); [|destruct Hin]. destruct Hin as [X|[]]. inversion X. subst p. eapply Hl; eauto.
  - destruct D as (_ & b0 & e & Hb & He & Hi & -> & _). destruct Hin as [X|[]]. inversion X. subst p. eapply Hl; eauto.
  - destruct D as (_ & _ & b0 & Hb & [(e & He & Hi & _ & ->)|(_ & -> & _)]).
    + destruct (runningb (mg c) (e_ptr e)); [|destruct Hin]. destruct Hin as [X|[]]. inversion X. subst p. eapply Hl; eauto.
    + destruct Hin as [X|[]]; discriminate.
  - destruct D as (_ & _ & -> & _). destruct Hin as [X|[]]; discriminate.
  - destruct D as (_ & _ & -> & _). destruct Hin.
  - destruct D as (_ & _ & _ & -> & _). destruct Hin as [X|[]]; discriminate.
  - destruct D as (_ & _ & _ & [->| ->]); [destruct Hin|]. destruct Hin as [X|[]]; discriminate.
  - destruct D as (_ & -> & _). destruct Hin.
  - destruct ps; [destruct D as (_ & -> & _); destruct Hin|]. destruct D as (_ & _ & -> & _ & Hi).
    destruct Hin as [X|[]]. inversion X. subst p. eapply Hq; eauto.
  - destruct ps; [destruct D as (_ & -> & _); destruct Hin|]. destruct D as (_ & _ & -> & _ & Hi).
    destruct Hin as [X|[]]. inversion X. subst p. eapply Hq; eauto.
  - destruct D as (_ & -> & _). destruct Hin as [X|[]]; discriminate.
Qed.

Theorem C26_requests_are_loaded :
  forall (c : config) p, live H c -> In p (start_req (mg c) ++ stop_req (mg c)) -> In p (map e_ptr (loaded (mg c))).
Proof. intros c p L. pose proof (live_inv H Hpm Hpj c L) as I. apply (co_reqs _ (ib_core c I)). Qed.

(* ------------------------------------------------------------------ C27 *)
Theorem C27_realtime_never_destroys :
  forall a b (c c' : config), bstep H (LRt a b) c = Some (Ok c') ->
    lists (mg c') = lists (mg c) /\ scheds (mg c') = scheds (mg c) /\ cur (mg c') = cur (mg c) /\
    next (mg c') = next (mg c) /\ (forall p, alive (mg c) p -> alive (mg c') p).
Proof.
  intros a b c c' E. assert (X : lists (mg c') = lists (mg c) /\ scheds (mg c') = scheds (mg c) /\ cur (mg c') = cur (mg c) /\
    next (mg c') = next (mg c)).
  { cbn [bstep] in E. inversion E as [E']. unfold do_rt in E'.
    destruct (rt_step H _ a b (rt c) (mg c)) as [[m' pc']| | |] eqn:Er; cbn [bind] in E'; try discriminate.
    inversion E'; subst; clear E E'. cbn [mg]. eapply rt_step_lists; eauto. }
  destruct X as (A & B & C & D). repeat (split; auto). intros p (x & e & Hin & Hp). exists x, e. now rewrite A.
Qed.

(* ------------------------------------------------------------------ C29 *)
Theorem C29_mutual_exclusion :
  forall (c : config) j k, live H c -> in_call (thr c j) = true -> in_call (thr c k) = true -> j = k.
Proof.
  intros c j k L Hj Hk. pose proof (live_inv H Hpm Hpj c L) as I.
  apply (ib_ctl c I) in Hj. apply (ib_ctl c I) in Hk. congruence.
Qed.
(** services (not direct users of the API) exclude each other from beginning to end *)
Theorem C29_services_exclusive :
  forall (c : config) j k, live H c -> insrv (thr c j) = true -> insrv (thr c k) = true -> j = k.
Proof.
  intros c j k L Hj Hk. pose proof (live_inv H Hpm Hpj c L) as I.
  apply (ib_srv c I) in Hj. apply (ib_srv c I) in Hk. congruence.
Qed.

(** Linearizability: every thread's calls take effect exactly once, between call and return, with the
    answer returned; and the effects, in order, are those of the calls executed one after the other. *)
Theorem C29_linearizable :
  forall (m : mgr) h c, reachable H m -> please m = false -> hsteady H (quiet m) h c -> rosok c = true ->
  (forall k, exists s, protocol k h s) /\ legal H (catalogue m) (effects h) (catalogue (mg c)).
Proof.
  intros m h c Hr Hp S Ho. destruct (linearizable H Hpm Hpj m h c (inv_of H HP m Hr) Hp S Ho) as (_ & L).
  split; [|apply L]. intros k. exists (pst (thr c k)). apply L.
Qed.
(** The recorded responses are the answers the callers get. *)
Theorem C29_responses_adequate :
  forall k (c c' : config) a kk, cont (thr c k) = Some kk -> in_call (thr c k) = true ->
  bstep H (LTh k) c = Some (Ok c') ->
  (In (HRes k a) (hevs H (LTh k) c) -> thr c' k = TProg (insrv (thr c k)) (kk a)) /\
  ((forall a', ~ In (HRes k a') (hevs H (LTh k) c)) -> in_call (thr c' k) = true).
Proof. intros k c c' a kk Hc Hi E. eapply hevs_response; eauto. Qed.
End Theorems.

(* ------------------------------------------------------------------ C22 *)
Definition seen (k : answer -> bool) : answer -> prog := fun a => if k a then PLoader PEnd else PEnd.
Definition is_true (a : answer) : bool := match a with Returned b => b | Exception => false end.
Lemma runs_steps {W} (H : hooks W) ls : forall c c', runs H ls c = Some c' ->
  forall c0 ls0, steps H c0 ls0 c -> steps H c0 (ls0 ++ ls) c'.
Proof.
  induction ls as [|l ls IH]; intros c c' E c0 ls0 S; simpl in E.
  - inversion E; subst. now rewrite app_nil_r.
  - destruct (bstep H l c) as [[c1| | |]|] eqn:Eb; try discriminate.
    replace (ls0 ++ l :: ls) with ((ls0 ++ [l]) ++ ls) by (rewrite <- app_assoc; reflexivity).
    eapply IH; [exact E|]. eapply steps_snoc; eauto.
Qed.
Lemma ex0_reachable : reachable exH ex0.
Proof. apply reach_init. repeat split. Qed.
Definition ran (ls : list (label exW)) (m : mgr exW) : config exW :=
  match runs exH ls (quiet m) with Some c => c | None => quiet m end.
Lemma ran_steps ls m : (match runs exH ls (quiet m) with Some _ => true | None => false end) = true ->
  steps exH (quiet m) ls (ran ls m).
Proof.
  unfold ran. destruct (runs exH ls (quiet m)) as [c|] eqn:E; [|discriminate]. intros _.
  apply (runs_steps exH ls _ _ E (quiet m) []). constructor.
Qed.

(** Start-up: two loads happen before the first cycle; the realtime thread has read the list index just
    before the second one replaces it.  The second load then clears the list the realtime thread uses. *)
Definition startup_run : list (label exW) :=
  [LStart 0 true (PCall (CLoad exEnv "a") (fun _ => PCall (CLoad exEnv "d") (fun _ => PEnd)))] ++ ths 0 9 ++
  [LRt true true] ++ ths 0 7 ++ [LRt true true].
Theorem C22_startup_race :
  exists (m : mgr exW) ls c, reachable exH m /\ steps exH (quiet m) ls c /\ rosok c = true /\ list_race c.
Proof.
  exists ex0, startup_run, (ran startup_run ex0).
  split; [exact ex0_reachable|]. split; [apply ran_steps; vm_compute; reflexivity|].
  split; [vm_compute; reflexivity|].
  exists 0, true. vm_compute. auto.
Qed.
(** what is being destroyed: the list with the loaded controller *)
Example C22_startup_race_list : lists (mg (ran startup_run ex0)) true = [mkEntry "a" 0] /\
  rt (ran startup_run ex0) = RBegin /\ used (mg (ran startup_run ex0)) = Some true.
Proof. vm_compute. auto. Qed.

(** Shutdown: ros::ok() turns false while controllers are being restarted; an unload that no longer waits
    clears the list; the realtime thread's next step indexes out of range. *)
Definition shutdown_run : list (label exW) :=
  [LEnv (fun w => (fst w, true))] ++ rts 11 ++ [LEnv (fun w => (fst w, false))] ++ rts 5 ++
  [LStart 0 true (unload_service "c")] ++ ths 0 2 ++ [LRosDown] ++ ths 0 7.
Theorem C22_shutdown_undefined_behaviour :
  exists (m : mgr exW) ls c, reachable exH m /\ please m = false /\ steps exH (quiet m) ls c /\
    bstep exH (LRt true true) c = Some UB.
Proof.
  exists ex1, shutdown_run, (ran shutdown_run ex1).
  split; [exact ex1_reachable|]. split; [exact ex1_idle|]. split; [apply ran_steps; vm_compute; reflexivity|].
  vm_compute. reflexivity.
Qed.

(** Shutdown: switchController returns true although nothing has been switched. *)
Definition shutdown_switch_run : list (label exW) :=
  [LStart 0 false (PCall (CSwitch ["c"] [] STRICT) (seen is_true))] ++ ths 0 3 ++ [LRosDown] ++ ths 0 2.
Theorem C22_shutdown_switch_not_done :
  exists (m : mgr exW) ls c, reachable exH m /\ steps exH (quiet m) ls c /\
    (** thread 0 saw the answer true (its program replaces the loader only then) *)
    last (trace (mg c)) EvFatal = EvNewLoader /\ please (mg c) = true /\ runningb (mg c) 4 = false /\
    start_req (mg c) = [4].
Proof.
  exists ex1, shutdown_switch_run, (ran shutdown_switch_run ex1).
  split; [exact ex1_reachable|]. split; [apply ran_steps; vm_compute; reflexivity|].
  vm_compute. auto.
Qed.

(* ------------------------------------------------------------------ C28 *)
(** Motors come back while "a" (0) and "b" (1) run: the realtime thread has stopped and not yet restarted
    "b" when an unload of "b" looks at it. *)
Definition window_run : list (label exW) :=
  [LEnv (fun w => (fst w, true))] ++ rts 11 ++ [LEnv (fun w => (fst w, false))] ++ rts 7.
Definition window_cont : list (label exW) :=
  [LStart 0 true (PCall (CUnload "b") (seen is_true))] ++ ths 0 7 ++ rts 10 ++ ths 0 2 ++ rts 2 ++ ths 0 4.
Definition window : config exW := reached exH window_run ex1.
Definition after_window : config exW := match srun exH window_cont window with Some c => c | None => window end.
Lemma window_live : live exH window.
Proof. ex_live. Qed.
Theorem C28_unload_in_restart_window :
  exists c ls c', live exH c /\ steady exH c ls c' /\ rosok c' = true /\
    (** in [c] the cycle has stopped controller 1 ("b"), which is running otherwise, and not yet restarted
        it; list_controllers would report it as stopped *)
    runningb (snap c) 1 = true /\ runningb (mg c) 1 = false /\
    listControllers true (mg c) = Ok [("c", false); ("a", true); ("b", false)] /\
    (** then the call unloadController("b") is made and answers true ... *)
    (forall k, thr c k = TIdle) /\ hd_error ls = Some (LStart 0 true (PCall (CUnload "b") (seen is_true))) /\
    last (trace (mg c')) EvFatal = EvNewLoader /\
    (** ... while the realtime thread restarts and updates the controller *)
    (exists h, trace (mg c') = trace (mg c) ++ EvCb 1 CbStarting :: EvCb 0 CbUpdate :: EvCb 1 CbUpdate :: h) /\
    (** so it was destroyed while running, without a stop request *)
    ~ alive (mg c') 1 /\ running (mg c') 1.
Proof.
  exists window, window_cont, after_window.
  split; [exact window_live|]. split.
  { assert (X : match srun exH window_cont window with Some _ => true | None => false end = true) by (vm_compute; reflexivity).
    unfold after_window. destruct (srun exH window_cont window) as [c|] eqn:E; [|discriminate].
    apply (srun_steady exH window_cont _ _ E window []). constructor. }
  split; [vm_compute; reflexivity|]. split; [vm_compute; reflexivity|]. split; [vm_compute; reflexivity|].
  split; [vm_compute; reflexivity|]. split; [intros k; vm_compute; reflexivity|]. split; [reflexivity|].
  split; [vm_compute; reflexivity|].
  split; [exists [EvEnforce; EvEffort; EvPubJoint; EvNewLoader]; vm_compute; reflexivity|].
  split; [|vm_compute; reflexivity].
  intros (b & e & Hin & He). assert (X : lists (mg after_window) b = if b then [] else [mkEntry "a" 0; mkEntry "c" 4]).
  { destruct b; vm_compute; reflexivity. }
  rewrite X in Hin. clear X. destruct b; simpl in Hin; [tauto|]. destruct Hin as [<-|[<-|[]]]; discriminate He.
Qed.

(* ------------------------------------------------------------------ non-vacuity *)
(** C16: a switch starting "c" and stopping "a" in the middle of a cycle. *)
Definition switch_run : list (label exW) :=
  rts 5 ++ [LStart 0 true (switch_service ["c"] ["a"; "nobody"] BEST_EFFORT)] ++ ths 0 7 ++ rts 11 ++ ths 0 3 ++ rts 4.
Example C16_ex : live exH (reached exH switch_run ex1) /\
  skipn (List.length (trace ex1)) (trace (mg (reached exH switch_run ex1))) =
    [EvPropagate; EvZero; EvCb 0 CbUpdate; EvRequest [0] [4]; EvCb 1 CbUpdate; EvEnforce; EvEffort;
     EvCb 0 CbStopping; EvCb 4 CbStarting; EvSwitchDone; EvSwitchReturn; EvPropagate; EvZero; EvCb 4 CbUpdate].
Proof. split; [ex_live|vm_compute; reflexivity]. Qed.
(** C17: the cycle above *)
Definition cycle_run : list (label exW) :=
  rts 5 ++ [LStart 0 true (switch_service ["c"] ["a"; "nobody"] BEST_EFFORT)] ++ ths 0 7 ++ rts 11.
Example C17_ex_concurrent : live exH (reached exH cycle_run ex1) /\ rt (reached exH cycle_run ex1) = RIdle /\
  cyc (reached exH cycle_run ex1) = [EvPropagate; EvZero; EvCb 0 CbUpdate; EvCb 1 CbUpdate; EvEnforce; EvEffort;
     EvCb 0 CbStopping; EvCb 4 CbStarting; EvSwitchDone].
Proof. split; [ex_live|]. vm_compute. auto. Qed.
(** C21: a thread is about to rebuild a list while the realtime thread is in the middle of the other *)
Definition both_run : list (label exW) := rts 5 ++ [LStart 0 true (load_service exEnv "d")] ++ ths 0 4.
Example C21_ex : let c := reached exH both_run ex1 in
  live exH c /\ writes (thr c 0) (mg c) = Some false /\ rt_uses c = Some true.
Proof. cbv zeta. split; [ex_live|]. vm_compute. auto. Qed.
(** C23: cycle start, three controllers *)
Example C23_ex : let c := reached exH (rts 2) ex1 in
  live exH c /\ rt c = RBegin /\ used (mg c) = Some true /\ List.length (lists (mg c) true) = 3.
Proof. cbv zeta. split; [ex_live|]. vm_compute. auto. Qed.
(** C24: statistics are due (same system with a clock of one unit per reading and a period of 10 units) *)
Definition exF : hooks exW :=
  mkHooks exW (fun w => (fst w, (fst w + 1, snd w)%Z)) (fun w => w) (fun w => w) snd (fun w => w) (fun w => w)
    (fun _ _ w => w) (fun _ w => w) (fun _ w => w) 10%Z 100%Z.
Definition exf1 : mgr exW := match exec exF ex_ops ex0 with Some m => m | None => ex0 end.
Lemma exf1_reachable : reachable exF exf1.
Proof.
  apply exec_reachable with ex_ops ex0.
  - apply reach_init. repeat split.
  - unfold exf1. assert (X : match exec exF ex_ops ex0 with Some _ => true | None => false end = true)
      by (vm_compute; reflexivity).
    destruct (exec exF ex_ops ex0); [reflexivity|discriminate].
Qed.
Example C24_ex : let c := reached exF (rts 9) exf1 in
  live exF c /\ (match rt c with RFill _ => true | _ => false end) = true /\
  match bstep exF (LRt true true) c with
  | Some (Ok c') => map (fun s => (cs_name s, cs_running s, List.length (cs_samples s))) (mstats (mg c'))
  | _ => [] end = [("a", true, 4); ("b", true, 3); ("c", false, 3)].
Proof.
  cbv zeta. split; [|vm_compute; auto].
  apply reached_live; [exact exf1_reachable|vm_compute; reflexivity|vm_compute; reflexivity].
Qed.
(** C25: thread 0 has loaded "d" and waits for the realtime thread, which is in a cycle on the old list;
    thread 1 waits for the lock *)
Definition wait_run : list (label exW) :=
  rts 5 ++ [LStart 0 false (PCall (CLoad exEnv "d") (fun _ => PEnd)); LStart 1 true (switch_service ["c"] [] STRICT)] ++
  ths 0 7 ++ ths 1 2.
Example C25_ex_list : let c := reached exH wait_run ex1 in
  live exH c /\ waits_for_list 0 c /\ former_in_use (mg c) = true /\ thr c 1 <> TIdle /\ bstep exH (LTh 1) c = None.
Proof. cbv zeta. split; [ex_live|]. vm_compute. repeat split; auto. discriminate. Qed.
Definition wait_sw_run : list (label exW) := rts 5 ++ [LStart 0 true (switch_service ["c"] ["a"] STRICT)] ++ ths 0 5.
Example C25_ex_switch : let c := reached exH wait_sw_run ex1 in
  live exH c /\ waits_for_switch 0 c /\ please (mg c) = true.
Proof. cbv zeta. split; [ex_live|]. vm_compute. auto. Qed.
(** C26: requests are pending *)
Example C26_ex : let c := reached exH wait_sw_run ex1 in start_req (mg c) ++ stop_req (mg c) = [4; 0].
Proof. vm_compute. reflexivity. Qed.
(** C29: thread 0 loads "d", thread 1 unloads "c", interleaved with cycles; final history *)
Fixpoint hist {W} (H : hooks W) (ls : list (label W)) (c : config W) : list hevent :=
  match ls with
  | [] => []
  | l :: ls' => hevs H l c ++ match bstep H l c with Some (Ok c') => hist H ls' c' | _ => [] end
  end.
Lemma hist_hsteady {W} (H : hooks W) ls : forall c c', srun H ls c = Some c' ->
  forall c0 h0, hsteady H c0 h0 c -> hsteady H c0 (h0 ++ hist H ls c) c'.
Proof.
  induction ls as [|l ls IH]; intros c c' E c0 h0 S; simpl in E; cbn [hist].
  - inversion E; subst. now rewrite app_nil_r.
  - rewrite app_assoc. destruct (staleb c) eqn:Es.
    + destruct l; try discriminate; (destruct (bstep H _ c) as [[c1| | |]|] eqn:Eb; try discriminate;
        eapply IH; [exact E|]; eapply hst_snoc; eauto; discriminate).
    + assert (X : match bstep H l c with Some (Ok c') => srun H ls c' | _ => None end = Some c').
      { destruct l; exact E. }
      destruct (bstep H l c) as [[c1| | |]|] eqn:Eb; try discriminate.
      eapply IH; [exact X|]. eapply hst_snoc; eauto. intros _ _ _. now apply staleb_spec.
Qed.
Lemma reached_hsteady {W} (H : hooks W) ls m :
  match srun H ls (quiet m) with Some _ => true | None => false end = true ->
  hsteady H (quiet m) (hist H ls (quiet m)) (reached H ls m).
Proof.
  unfold reached. destruct (srun H ls (quiet m)) as [c|] eqn:E; [|discriminate]. intros _.
  apply (hist_hsteady H ls _ _ E (quiet m) []). constructor.
Qed.
Definition two_run : list (label exW) :=
  rts 5 ++ [LStart 0 false (PCall (CLoad exEnv "d") (fun _ => PEnd)); LStart 1 true (unload_service "c")] ++
  ths 1 2 ++ ths 0 7 ++ rts 10 ++ ths 0 4 ++ ths 1 5 ++ rts 12 ++ ths 1 3.
Example C29_ex :
  hsteady exH (quiet ex1) (hist exH two_run (quiet ex1)) (reached exH two_run ex1) /\
  rosok (reached exH two_run ex1) = true /\
  map (fun e => match e with HInv k _ => (k, 0) | HLin k _ _ => (k, 1) | HRes k _ => (k, 2) end) (hist exH two_run (quiet ex1)) =
    [(1, 0); (0, 0); (0, 1); (0, 2); (1, 1); (1, 2)] /\
  loaded_names (mg (reached exH two_run ex1)) = ["a"; "b"; "d"].
Proof.
  split; [apply reached_hsteady; vm_compute; reflexivity|].
  split; [vm_compute; reflexivity|]. split; [vm_compute; reflexivity|]. vm_compute. reflexivity.
Qed.
