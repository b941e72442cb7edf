(** Level B: the invariant of all interleavings (while ros is ok and the first publication of the list
    index was not stale), and that every step keeps it. *)
From Coq Require Import List String Arith Bool ZArith Lia Sorting.Permutation.
From Verif.Model Require Import Base Scheduler Controller Manager ManagerConc.
From Verif.Spec Require Import SchedulerSpec ManagerSpec ConcSpec.
From Verif.Proofs Require Import SchedulerProofs ManagerProofs ManagerInv ManagerOps ConcBase.
Import ListNotations.

(** inside the controllers_lock_ *)
Definition crit (t : tstate) : bool :=
  match t with
  | TWait1 _ _ _ | TWait1b _ _ _ | TBody _ _ _ | TPub _ _ _ | TFlip _ _ _ | TWait2 _ _ _ | TWait2b _ _ _
  | TClear _ _ _ | TSw _ _ | TSwb _ _ => true
  | _ => false
  end.
(** holds pub_mech_stats_ *)
Definition inpub (t : tstate) : bool :=
  match t with TFlip _ _ _ | TWait2 _ _ _ | TWait2b _ _ _ | TClear _ _ _ => true | _ => false end.
(** holds services_lock_ *)
Definition insrv (t : tstate) : bool :=
  match t with
  | TIdle | TWant _ => false
  | TProg s _ | TLock s _ _ | TWait1 s _ _ | TWait1b s _ _ | TBody s _ _ | TPub s _ _ | TFlip s _ _
  | TWait2 s _ _ | TWait2b s _ _ | TClear s _ _ | TSw s _ | TSwb s _ => s
  end.

Definition is_switch (c : call) : bool := match c with CSwitch _ _ _ => true | _ => false end.

Section CInv.
Context {W : Type} (H : hooks W).
Notation mgr := (mgr W).
Notation config := (config W).

Definition used_cur (m : mgr) : Prop := used m = None \/ used m = Some (cur m).

(** the prepared list of a load/unload call *)
Definition shape (m : mgr) (c : call) : Prop :=
  match c with
  | CLoad _ n => ~ In n (loaded_names m) /\
      exists p, lists m (negb (cur m)) = loaded m ++ [mkEntry n p] /\ state_of m p <> CONSTRUCTED /\
                ~ In p (map e_ptr (loaded m))
  | CUnload n => (exists e, In e (loaded m) /\ e_name e = n) /\ ~ has_dependent m n /\
      lists m (negb (cur m)) = others n (loaded m)
  | CSwitch _ _ _ => False
  end.

(** what holds while the owner of controllers_lock_ is at [t] (TIdle: nobody owns it) *)
Definition hold_ok (m : mgr) (t : tstate) : Prop :=
  match t with
  | TWait1 _ cl _ | TWait1b _ cl _ => please m = false /\ used_cur m /\ is_switch cl = false
  | TPub _ cl _ | TFlip _ cl _ => please m = false /\ used_cur m /\ GoodList m (negb (cur m)) /\ shape m cl
  | TWait2 _ cl _ | TWait2b _ cl _ => please m = false /\ (used_cur m \/ GoodList m (negb (cur m)))
  | TSw _ _ | TSwb _ _ => used_cur m
  | _ => please m = false /\ used_cur m
  end.

Definition rt_ok (m : mgr) (pc : rpc) : Prop :=
  match pc with
  | RIdle => True
  | RGot b => used m = Some (cur m) -> b = cur m
  | RRestarting i => exists b, used m = Some b /\ i < List.length (lists m b)
  | RStop ps => used m <> None /\ please m = true /\ exists d, stop_req m = d ++ ps
  | RStart ps => used m <> None /\ please m = true /\ exists d, start_req m = d ++ ps
  | REnd => used m <> None /\ please m = true
  | _ => used m <> None
  end.

Definition holder (c : config) : tstate := match ctl_lock c with Some k => thr c k | None => TIdle end.

Record Core (m : mgr) : Prop := {
  co_cur : GoodList m (cur m);
  co_reqs : forall p, In p (start_req m ++ stop_req m) -> In p (map e_ptr (loaded m));
  co_idle : please m = false -> start_req m = [] /\ stop_req m = [];
  co_mstats : map cs_name (mstats m) = map e_name (loaded m);
  co_fatal : ~ In EvFatal (trace m) }.

Record InvB (c : config) : Prop := {
  ib_core : Core (mg c);
  ib_hold : hold_ok (mg c) (holder c);
  ib_rt : rt_ok (mg c) (rt c);
  ib_ctl : forall k, crit (thr c k) = true <-> ctl_lock c = Some k;
  ib_srv : forall k, insrv (thr c k) = true <-> srv_lock c = Some k;
  ib_pub : forall k, inpub (thr c k) = true <-> pub_lock c = Some (OThread k);
  ib_fill : (exists t, rt c = RFill t) <-> pub_lock c = Some ORt }.

(* ------------------------------------------------------------------ consequences *)
Lemma hold_used m t b : hold_ok m t -> GoodList m (cur m) -> used m = Some b -> GoodList m b.
Proof.
  intros Ho G Hu.
  assert (X : used_cur m \/ GoodList m (negb (cur m))).
  { destruct t; simpl in Ho; try tauto. }
  destruct X as [[X|X]|X]; try congruence. destruct (Bool.bool_dec b (cur m)) as [->|Hn]; auto.
  replace b with (negb (cur m)); auto. destruct b, (cur m); simpl; congruence.
Qed.

Lemma used_good c b : InvB c -> used (mg c) = Some b -> GoodList (mg c) b.
Proof. intros I. apply hold_used with (holder c); apply I. Qed.

Lemma core_inv m : Core m -> used_cur m -> Inv m.
Proof. intros C Hu. apply inv_of_good; auto; apply C. Qed.

Lemma holder_eq c k : InvB c -> crit (thr c k) = true -> holder c = thr c k.
Proof. intros I Hc. unfold holder. apply (ib_ctl c I) in Hc. now rewrite Hc. Qed.

(* ------------------------------------------------------------------ steps of the realtime thread *)
Lemma core_frame m m' :
  Core m -> frame m m' -> map cs_name (mstats m') = map cs_name (mstats m) -> ~ In EvFatal (trace m') -> Core m'.
Proof.
  intros C F Hs Hf. pose proof F as (E1&E2&E3&E4&E5&E6&E7&E8&E9&E10). constructor; auto.
  - rewrite E3. eapply frame_good; eauto. apply C.
  - unfold loaded. rewrite E1, E3, E6, E7. apply C.
  - rewrite E6, E7, E8. apply C.
  - unfold loaded. rewrite Hs, E1, E3. apply C.
Qed.

Lemma shape_frame m m' c : frame m m' -> shape m c -> shape m' c.
Proof.
  intros (E1&E2&E3&E4&E5&E6&E7&E8&E9&E10). unfold shape, loaded_names, loaded. destruct c as [env n|n|a b s]; auto.
  - rewrite E1, E3. intros (Hn & p & Hl & Hst & Hp). split; auto. exists p. repeat split; auto.
    unfold state_of in *. rewrite E10. exact Hst.
  - rewrite E1, E3. intros (He & Hd & Hl). split; auto. split; auto. intros (e & Hin & Hd').
    apply Hd. exists e. unfold loaded in *. rewrite E1, E3 in Hin. split; auto.
    unfold dep_names in *. destruct (E9 (e_ptr e)) as [_ Ed]. now rewrite Ed in Hd'.
Qed.

Lemma hold_frame m m' t : frame m m' -> hold_ok m t -> hold_ok m' t.
Proof.
  intros F. pose proof F as (E1&E2&E3&E4&E5&E6&E7&E8&E9&E10).
  assert (Hg : GoodList m (negb (cur m)) -> GoodList m' (negb (cur m'))).
  { rewrite E3. now apply frame_good. }
  assert (Hu : used_cur m -> used_cur m') by (unfold used_cur; rewrite E3, E4; auto).
  pose proof (fun c => shape_frame m m' c F) as Hs.
  destruct t; simpl; rewrite ?E8; intuition.
Qed.

Lemma trace_nofatal (m m' : mgr) evs :
  ~ In EvFatal (trace m) -> trace m' = trace m ++ evs -> ~ In EvFatal evs -> ~ In EvFatal (trace m').
Proof. intros A -> B X. apply in_app_or in X. tauto. Qed.

Ltac nofatal :=
  simpl; let X := fresh in intros X; repeat (destruct X as [X|X]; try discriminate X); try tauto.

(** facts about one realtime step which does not touch [used] nor [please] *)
Definition quiet_step (m m' : mgr) (evs : list event) : Prop :=
  frame m m' /\ map cs_name (mstats m') = map cs_name (mstats m) /\ trace m' = trace m ++ evs /\
  ~ In EvFatal evs.

Lemma quiet_refl m : quiet_step m m [].
Proof. repeat split; auto using frame_refl. now rewrite app_nil_r. Qed.

Lemma stop_one_quiet m p : state_of m p <> CONSTRUCTED ->
  quiet_step m (rt_stop_one H m p) [EvCb p CbStopping] /\
  (forall q, heap (rt_stop_one H m p) q = if Nat.eqb q p then set_co_state INITIALIZED (heap m p) else heap m q).
Proof.
  intros Hp. unfold rt_stop_one. destruct (stop_ctrl_spec H p m Hp) as (m' & -> & F & T & S & _ & _ & _ & Q).
  split; auto. split; auto. split; [now rewrite S|]. split; auto. nofatal.
Qed.
Lemma start_one_quiet m p : state_of m p <> CONSTRUCTED ->
  quiet_step m (rt_start_one H m p) [EvCb p CbStarting] /\
  (forall q, heap (rt_start_one H m p) q = if Nat.eqb q p then set_co_state RUNNING (heap m p) else heap m q).
Proof.
  intros Hp. unfold rt_start_one. destruct (start_ctrl_spec H p m Hp) as (m' & -> & F & T & S & _ & _ & _ & Q).
  split; auto. split; auto. split; [now rewrite S|]. split; auto. nofatal.
Qed.

Lemma update_one_quiet m b i : GoodList m b -> used m = Some b -> i < List.length (lists m b) ->
  exists e m', rt_nth m i = Ok e /\ nth_error (order_in_list m b) i = Some e /\ In e (lists m b) /\
    rt_update_one H m i = Ok m' /\
    quiet_step m m' (if runningb m (e_ptr e) then [EvCb (e_ptr e) CbUpdate] else []) /\
    (forall q, state_of m' q = state_of m q).
Proof.
  intros G Hu Hi. destruct (rt_nth_good m b i G Hu Hi) as (e & E1 & E2 & E3).
  exists e, (update_entry H m e). split; auto. split; auto. split; auto.
  split. { unfold rt_update_one. rewrite E1. cbn [bind]. unfold update_entry.
    destruct (now H m) as [t0 m1]. destruct (now H (update_ctrl H (e_ptr e) m1)) as [t1 m2]. reflexivity. }
  destruct (update_entry_spec H m e) as (F & T & S & _ & _ & _ & Q & _).
  split; auto. split; auto. split; [now rewrite S|]. split; auto.
  destruct (runningb m (e_ptr e)); nofatal.
Qed.

Lemma nth_error_last {A} (l : list A) : forall i, ~ i < List.length l -> nth_error l i = None.
Proof. intros i Hi. apply nth_error_None. lia. Qed.

Lemma fill_quiet m t b : (0 < h_per_mech H)%Z -> used m = Some b ->
  List.length (lists m b) <= List.length (mstats m) ->
  exists m', rt_fill_mech H t m = Ok m' /\ quiet_step m m' [EvPubMech (mstats m')] /\ heap m' = heap m /\
    (forall j e c, nth_error (lists m b) j = Some e -> nth_error (mstats m') j = Some c ->
       cs_stamp c = t /\ cs_running c = runningb m (e_ptr e) /\
       cs_samples c = st_samples (co_stats (heap m (e_ptr e))) /\
       cs_overruns c = st_overruns (co_stats (heap m (e_ptr e))) /\
       cs_last_overrun c = st_last_overrun (co_stats (heap m (e_ptr e)))).
Proof.
  intros Hp Hu Hl. unfold rt_fill_mech.
  destruct (catch_up_ok (catch_up_fuel (last_mech m) t) (last_mech m) (h_per_mech H) t Hp) as (last & ->).
  { unfold catch_up_fuel. lia. }
  cbn [bind]. unfold rt_list. simpl. rewrite Hu. cbn [bind].
  destruct (fill_stats_ok (on_world (h_pub_mech H t) (set_last_mech last m)) t (lists m b) 0 (mstats m)) as (out & E & L & Nm & _ & Hv).
  { simpl. lia. }
  rewrite E. cbn [bind].
  match goal with |- context [now H ?x] => destruct (now_spec H x) as (t2 & w2 & ->) end.
  eexists. split; [reflexivity|]. split.
  - split; [|split; [simpl; auto|split; [reflexivity|nofatal]]]. unfold frame; simpl; intuition.
  - split; [reflexivity|]. intros j e c He Hc. simpl in Hc.
    destruct (Hv j e c He Hc) as (V1 & V2 & V3 & V4 & V5). repeat split; auto.
Qed.


Lemma fill_used c t : InvB c -> rt c = RFill t -> used (mg c) = Some (cur (mg c)).
Proof.
  intros I Hr. pose proof (ib_rt c I) as R. rewrite Hr in R. simpl in R.
  assert (Hp : pub_lock c = Some ORt) by (apply (ib_fill c I); eauto).
  pose proof (ib_hold c I) as Ho. unfold holder in Ho.
  destruct (ctl_lock c) as [k|] eqn:Hk; [|destruct Ho as [_ [X|X]]; tauto].
  assert (Hn : inpub (thr c k) = false).
  { destruct (inpub (thr c k)) eqn:E; auto. apply (ib_pub c I) in E. congruence. }
  assert (Hc : crit (thr c k) = true) by now apply (ib_ctl c I).
  destruct (thr c k); try discriminate; simpl in Ho; unfold used_cur in Ho; tauto.
Qed.

Lemma in_loaded_init m p : Core m -> In p (map e_ptr (loaded m)) -> state_of m p <> CONSTRUCTED.
Proof.
  intros C Hin. apply in_map_iff in Hin. destruct Hin as (e & <- & He).
  now apply (gl_state m (cur m) (co_cur m C)).
Qed.

(** the generic part of a realtime step *)
Lemma rt_inv_quiet c m' evs pc' pl sn cy :
  InvB c -> quiet_step (mg c) m' evs -> rt_ok m' pc' ->
  (forall k, pl = Some (OThread k) <-> pub_lock c = Some (OThread k)) ->
  ((exists t, pc' = RFill t) <-> pl = Some ORt) ->
  InvB (mkConfig m' pc' (thr c) (srv_lock c) (ctl_lock c) pl (rosok c) sn cy).
Proof.
  intros I (F & S & T & Fa) R Hp Hf. constructor; simpl; auto.
  - apply core_frame with (mg c); auto; try apply I. eapply trace_nofatal; eauto. apply I.
  - unfold holder. simpl. apply hold_frame with (mg c); auto. apply I.
  - apply I.
  - apply I.
  - intros k. rewrite Hp. apply I.
Qed.

(** result of a realtime step *)
Lemma do_rt_inv c l1 l2 :
  (0 < h_per_mech H)%Z -> (0 < h_per_js H)%Z ->
  InvB c -> ~ stale_start c -> exists c', do_rt H l1 l2 c = Ok c' /\ InvB c' /\ rosok c' = rosok c.
Proof.
  intros Hpm Hpj I Hst. unfold do_rt.
  set (free := match pub_lock c with None => true | Some _ => false end).
  assert (Hfree : free = true -> pub_lock c = None) by (unfold free; destruct (pub_lock c); congruence).
  clearbody free.
  (* keep the lock: neither the old nor the new program counter is RFill *)
  assert (Hkeep : forall m' pc' evs sn cy, quiet_step (mg c) m' evs -> rt_ok m' pc' ->
     (forall t, rt c <> RFill t) -> (forall t, pc' <> RFill t) ->
     InvB (mkConfig m' pc' (thr c) (srv_lock c) (ctl_lock c) (rt_pub (rt c) pc' (pub_lock c)) (rosok c) sn cy)).
  { intros m' pc' evs sn cy Q R H1 H2.
    assert (E : rt_pub (rt c) pc' (pub_lock c) = pub_lock c).
    { unfold rt_pub. destruct pc', (rt c); auto; exfalso; try now eapply H1. all: now eapply H2. }
    rewrite E. apply rt_inv_quiet with evs; auto; try tauto.
    split; [intros (t & Ht); exfalso; eapply H2; eauto|]. intros X. apply (ib_fill c I) in X.
    destruct X as (t & X). exfalso. eapply H1; eauto. }
  pose proof (ib_rt c I) as R. pose proof (ib_core c I) as C.
  assert (Hu : forall P : mgr -> Prop, used (mg c) <> None ->
     exists b, used (mg c) = Some b /\ GoodList (mg c) b).
  { intros _ Hne. destruct (used (mg c)) as [b|] eqn:E; [|tauto]. exists b. split; auto. now apply used_good. }
  destruct (rt c) as [|b| |i|i|i| | |t| | |ps|ps|] eqn:Hr; cbn [rt_step].
  - (* RIdle *) eexists. split; [reflexivity|]. split; auto. rewrite <- Hr. rewrite <- Hr in Hkeep.
    apply Hkeep with []; auto using quiet_refl; try discriminate. simpl. auto. intros; congruence.
  - (* RGot *) eexists. split; [reflexivity|]. split; auto. constructor; simpl.
    + destruct C. constructor; simpl; auto. apply good_transfer with (mg c) (cur (mg c)); auto.
    + assert (Hb : used_cur (mg c) -> b = cur (mg c)).
      { intros [X|X]; [|now apply R]. destruct (Bool.bool_dec b (cur (mg c))); auto.
        exfalso. apply Hst. split; auto. eauto. }
      assert (Hg : GoodList (mg c) (negb (cur (mg c))) -> GoodList (rt_use b (mg c)) (negb (cur (mg c)))).
      { intros G. apply good_transfer with (mg c) (negb (cur (mg c))); auto. }
      assert (Hc : used_cur (mg c) -> used_cur (rt_use b (mg c))).
      { intros X. right. simpl. f_equal. auto. }
      assert (Hsh : forall cl, shape (mg c) cl -> shape (rt_use b (mg c)) cl).
      { intros cl. exact (fun x => x). }
      pose proof (ib_hold c I) as Ho. unfold holder in *. simpl.
      destruct (match ctl_lock c with Some k => thr c k | None => TIdle end); simpl in *; intuition.
    + discriminate.
    + apply I.
    + apply I.
    + intros k. pose proof (ib_pub c I k) as X. exact X.
    + pose proof (ib_fill c I) as X. rewrite Hr in X. split; [intros (t & Ht); discriminate|].
      intros Y. apply X in Y. destruct Y; discriminate.
  - (* RBegin *) simpl in R. destruct (rt_pre_spec H (mg c)) as (F & T & _ & S & _).
    assert (Q : quiet_step (mg c) (rt_pre H (mg c)) [EvPropagate; EvZero]).
    { split; auto. split; [now rewrite S|]. split; auto. nofatal. }
    assert (Hne : used (rt_pre H (mg c)) <> None) by (destruct F as (_&_&_&E4&_); rewrite E4; auto).
    cbv zeta. destruct (rt_must_restart H (rt_pre H (mg c))); (eexists; split; [reflexivity|]; split; [|reflexivity]; apply Hkeep with [EvPropagate; EvZero]; auto; try discriminate; try (destruct F as (F1&F2&F3&F4&_); simpl; rewrite ?F4; auto)).
  - (* RRestart *) simpl in R. destruct (Hu (fun _ => True) R) as (b & Hb & G).
    unfold rt_list. rewrite Hb. cbn [bind]. destruct (Nat.ltb_spec i (List.length (lists (mg c) b))) as [Hi|Hi].
    + destruct (rt_nth_good (mg c) b i G Hb Hi) as (e & -> & E2 & E3). cbn [bind].
      destruct (isRunning (state_of (mg c) (e_ptr e))) eqn:Hrun.
      * destruct (stop_ctrl_spec H (e_ptr e) (mg c)) as (m' & -> & F & T & S & _).
        { now apply (gl_state (mg c) b G). }
        eexists. split; [reflexivity|]. split; auto.
        apply Hkeep with [EvCb (e_ptr e) CbStopping]; try discriminate.
        -- split; auto. split; [now rewrite S|]. split; auto. nofatal.
        -- simpl. exists b. destruct F as (F1&_&_&F4&_). rewrite F1, F4. auto.
      * eexists. split; [reflexivity|]. split; auto. apply Hkeep with []; auto using quiet_refl; discriminate.
    + eexists. split; [reflexivity|]. split; auto. apply Hkeep with []; try discriminate; auto.
      split; [apply frame_prev|]. split; [reflexivity|]. split; [simpl; now rewrite app_nil_r|]. nofatal.
  - (* RRestarting *) destruct R as (b & Hb & Hi). pose proof (used_good c b I Hb) as G.
    destruct (rt_nth_good (mg c) b i G Hb Hi) as (e & -> & E2 & E3). cbn [bind].
    destruct (start_ctrl_spec H (e_ptr e) (mg c)) as (m' & -> & F & T & S & _).
    { now apply (gl_state (mg c) b G). }
    eexists. split; [reflexivity|]. split; auto.
    apply Hkeep with [EvCb (e_ptr e) CbStarting]; try discriminate.
    + split; auto. split; [now rewrite S|]. split; auto. nofatal.
    + simpl. destruct F as (F1&_&_&F4&_). rewrite F4. congruence.
  - (* RUpdate *) simpl in R. destruct (Hu (fun _ => True) R) as (b & Hb & G).
    unfold rt_list. rewrite Hb. cbn [bind]. destruct (Nat.ltb_spec i (List.length (lists (mg c) b))) as [Hi|Hi].
    + destruct (update_one_quiet (mg c) b i G Hb Hi) as (e & m' & _ & _ & _ & -> & Q & _). cbn [bind].
      eexists. split; [reflexivity|]. split; auto. apply Hkeep with (1 := Q); try discriminate.
      simpl. destruct Q as (F & _). destruct F as (F1&_&_&F4&_). rewrite F4. congruence.
    + destruct (rt_enforce_spec H (mg c)) as (F & T & _ & S & _).
      eexists. split; [reflexivity|]. split; auto. apply Hkeep with [EvEnforce]; try discriminate.
      * split; auto. split; [now rewrite S|]. split; auto. nofatal.
      * simpl. destruct F as (F1&_&_&F4&_). now rewrite F4.
  - (* REffort *) simpl in R.
    destruct (rt_send_spec H (mg c)) as (F & T & _ & S & _).
    eexists. split; [reflexivity|]. split; auto. apply Hkeep with [EvEffort]; try discriminate.
    + split; auto. split; [now rewrite S|]. split; auto. nofatal.
    + simpl. destruct F as (F1&_&_&F4&_). now rewrite F4.
  - (* RPub1 *) destruct (now_spec H (mg c)) as (t & w & ->).
    assert (Q : quiet_step (mg c) (set_world w (mg c)) []).
    { split; [apply frame_world|]. split; [reflexivity|]. split; [simpl; now rewrite app_nil_r|]. nofatal. }
    destruct (mech_due H t (set_world w (mg c)) && free && l1) eqn:E.
    + apply andb_true_iff in E. destruct E as [E _]. apply andb_true_iff in E. destruct E as [_ E].
      eexists. split; [reflexivity|]. split; auto. apply rt_inv_quiet with []; auto; simpl.
      * intros k. rewrite (Hfree E). split; discriminate.
      * split; eauto.
    + eexists. split; [reflexivity|]. split; auto. apply Hkeep with []; auto; discriminate.
  - (* RFill *) pose proof (fill_used c t I Hr) as Hb.
    destruct (fill_quiet (mg c) t (cur (mg c)) Hpm Hb) as (m' & -> & Q & _).
    { pose proof (co_mstats _ C) as X. apply (f_equal (@List.length _)) in X. rewrite !map_length in X.
      unfold loaded in X. lia. }
    cbn [bind]. eexists. split; [reflexivity|]. split; auto. apply rt_inv_quiet with (1 := I) (2 := Q); simpl.
    + destruct Q as (F & _). destruct F as (F1&_&_&F4&_). rewrite F4. congruence.
    + intros k. split; [discriminate|]. intros X. assert (Y : pub_lock c = Some ORt) by (apply (ib_fill c I); eauto).
      congruence.
    + split; [intros (t' & X); discriminate|discriminate].
  - (* RPub2 *) destruct (publish_js_spec H l2 (mg c) Hpj) as (m' & ev & -> & F & _ & _ & S & T & Ev).
    cbn [bind]. eexists. split; [reflexivity|]. split; auto. apply Hkeep with ev; try discriminate.
    + split; auto. split; [now rewrite S|]. split; auto. destruct Ev as [->| ->]; nofatal.
    + simpl. destruct F as (F1&_&_&F4&_). now rewrite F4.
  - (* RSwitch *) destruct (please (mg c)) eqn:Hpl; (eexists; split; [reflexivity|]; split; auto;
      apply Hkeep with []; auto using quiet_refl; try discriminate).
    + simpl. split; auto. split; auto. exists []. reflexivity.
    + exact Logic.I.
  - (* RStop *) destruct R as (R0 & R1 & d & R2). destruct ps as [|p ps]; cbn [rt_step].
    + eexists. split; [reflexivity|]. split; auto. apply Hkeep with []; auto using quiet_refl; try discriminate.
      simpl. split; auto. split; auto. exists []. reflexivity.
    + destruct (stop_one_quiet (mg c) p) as (Q & _).
      { apply in_loaded_init; auto. apply (co_reqs _ C). rewrite R2. apply in_or_app. right. apply in_or_app. right. now left. }
      eexists. split; [reflexivity|]. split; auto. apply Hkeep with (1 := Q); try discriminate.
      destruct Q as (F & _). destruct F as (F1&_&_&F4&_&F6&F7&F8&_). simpl. rewrite F4, F7, F8.
      split; auto. split; auto. exists (d ++ [p]). rewrite <- app_assoc. exact R2.
  - (* RStart *) destruct R as (R0 & R1 & d & R2). destruct ps as [|p ps]; cbn [rt_step].
    + eexists. split; [reflexivity|]. split; auto. apply Hkeep with []; auto using quiet_refl; try discriminate.
      simpl. split; auto.
    + destruct (start_one_quiet (mg c) p) as (Q & _).
      { apply in_loaded_init; auto. apply (co_reqs _ C). rewrite R2. apply in_or_app. left. apply in_or_app. right. now left. }
      eexists. split; [reflexivity|]. split; auto. apply Hkeep with (1 := Q); try discriminate.
      destruct Q as (F & _). destruct F as (F1&_&_&F4&_&F6&F7&F8&_). simpl. rewrite F4, F6, F8.
      split; auto. split; auto. exists (d ++ [p]). rewrite <- app_assoc. exact R2.
  - (* REnd *) destruct R as (R0 & R1). eexists. split; [reflexivity|]. split; auto. constructor; simpl; try apply I; auto.
    + destruct C. constructor; simpl; auto.
      * apply good_transfer with (mg c) (cur (mg c)); auto.
      * intros p [].
      * intros X. apply in_app_or in X. destruct X as [X|X]; [tauto|]. revert X. nofatal.
    + pose proof (ib_hold c I) as Ho. unfold holder in *. simpl.
      destruct (match ctl_lock c with Some k => thr c k | None => TIdle end); simpl in *; try (exfalso; destruct Ho as [Ho _]; congruence);
        unfold used_cur in *; simpl; auto.
    + pose proof (ib_fill c I) as X. rewrite Hr in X. split; [intros (t & Ht); discriminate|].
      intros Y. apply X in Y. destruct Y; discriminate.
Qed.

(* ------------------------------------------------------------------ steps of client threads *)
Lemma set_thr_same (f : nat -> tstate) k t : set_thr f k t k = t.
Proof. unfold set_thr. now rewrite Nat.eqb_refl. Qed.
Lemma set_thr_other (f : nat -> tstate) k t j : j <> k -> set_thr f k t j = f j.
Proof. unfold set_thr. destruct (Nat.eqb_spec j k); tauto. Qed.

Lemma lock_keep (P : tstate -> bool) (f : nat -> tstate) k t (Q : nat -> Prop) :
  (forall j, P (f j) = true <-> Q j) -> P t = P (f k) -> forall j, P (set_thr f k t j) = true <-> Q j.
Proof.
  intros A B j. unfold set_thr. destruct (Nat.eqb_spec j k) as [->|]; auto. rewrite B. apply A.
Qed.
Lemma lock_take {A} (P : tstate -> bool) (f : nat -> tstate) k t (g : nat -> A) :
  (forall j, P (f j) = true <-> @None A = Some (g j)) -> P t = true -> (forall i j, g i = g j -> i = j) ->
  forall j, P (set_thr f k t j) = true <-> Some (g k) = Some (g j).
Proof.
  intros Hf Ht Hg j. unfold set_thr. destruct (Nat.eqb_spec j k) as [->|Hn].
  - split; auto.
  - rewrite Hf. split; [discriminate|]. intros X. inversion X as [Y]. apply Hg in Y. congruence.
Qed.
Lemma lock_free {A} (P : tstate -> bool) (f : nat -> tstate) k t (g : nat -> A) :
  (forall j, P (f j) = true <-> Some (g k) = Some (g j)) -> P t = false -> (forall i j, g i = g j -> i = j) ->
  forall j, P (set_thr f k t j) = true <-> @None A = Some (g j).
Proof.
  intros Hf Ht Hg j. unfold set_thr. destruct (Nat.eqb_spec j k) as [->|Hn].
  - rewrite Ht. split; discriminate.
  - rewrite Hf. split; [|discriminate]. intros X. inversion X as [Y]. apply Hg in Y. congruence.
Qed.

Lemma inv_build c k t m' sl cl pl ro sn cy :
  InvB c -> Core m' -> rt_ok m' (rt c) ->
  hold_ok m' (match cl with Some j => set_thr (thr c) k t j | None => TIdle end) ->
  (forall j, crit (set_thr (thr c) k t j) = true <-> cl = Some j) ->
  (forall j, insrv (set_thr (thr c) k t j) = true <-> sl = Some j) ->
  (forall j, inpub (set_thr (thr c) k t j) = true <-> pl = Some (OThread j)) ->
  (pl = Some ORt <-> pub_lock c = Some ORt) ->
  InvB (mkConfig m' (rt c) (set_thr (thr c) k t) sl cl pl ro sn cy).
Proof.
  intros I C R Ho H1 H2 H3 H4. constructor; simpl; auto. rewrite (ib_fill c I). symmetry. exact H4.
Qed.

(** a thread that stays outside / inside its locks *)
Lemma inv_move c k t :
  InvB c -> crit t = crit (thr c k) -> insrv t = insrv (thr c k) -> inpub t = inpub (thr c k) ->
  (crit t = true -> hold_ok (mg c) t) -> InvB (with_thr k t c).
Proof.
  intros I H1 H2 H3 Ho. unfold with_thr. apply inv_build; auto; try apply I; try tauto.
  - pose proof (ib_hold c I) as X. unfold holder in X. destruct (ctl_lock c) as [j|] eqn:E; auto.
    destruct (Nat.eq_dec j k) as [->|Hn].
    + rewrite set_thr_same. apply Ho. rewrite H1. now apply (ib_ctl c I).
    + now rewrite set_thr_other.
  - apply lock_keep; auto. apply I.
  - apply lock_keep; auto. apply I.
  - apply lock_keep with (Q := fun j => pub_lock c = Some (OThread j)); auto. apply I.
Qed.

(** the owner of controllers_lock_ leaves it with a new manager state *)
Lemma inv_ret c k srv pr m' :
  InvB c -> crit (thr c k) = true -> insrv (thr c k) = srv -> inpub (thr c k) = false ->
  Core m' -> rt_ok m' (rt c) -> please m' = false -> used_cur m' ->
  InvB (ret k srv pr (with_mg m' c)).
Proof.
  intros I H1 H2 H3 C R Hp Hu. unfold ret, with_thr, with_ctl, with_mg. simpl. apply inv_build; auto; try tauto.
  - simpl. auto.
  - apply lock_free with (g := fun j => j); auto. intros j. rewrite (ib_ctl c I j).
    apply (ib_ctl c I) in H1. rewrite H1. tauto.
  - apply lock_keep; auto. apply I.
  - apply lock_keep with (Q := fun j => pub_lock c = Some (OThread j)); auto. apply I.
Qed.

Lemma bframe_core m m' : Core m -> bframe m m' -> Core m'.
Proof.
  intros C B. pose proof (bframe_good m m' B (co_cur m C)) as G.
  destruct C as [C1 C2 C3 C4 C5]. destruct B. constructor; unfold loaded in *.
  - now rewrite bf_cur.
  - now rewrite bf_cur, bf_start, bf_stop, bf_list.
  - now rewrite bf_please, bf_start, bf_stop.
  - now rewrite bf_mstats, bf_cur, bf_list.
  - destruct bf_trace as (evs & -> & Hf). intros X. apply in_app_or in X. destruct X as [X|X]; auto.
    rewrite Forall_forall in Hf. destruct (Hf _ X) as (p & b & Hx). discriminate.
Qed.
Lemma bframe_rt m m' pc : used_cur m -> bframe m m' -> rt_ok m pc -> rt_ok m' pc.
Proof.
  intros Hu B R. destruct B. destruct pc; simpl in *; rewrite ?bf_used, ?bf_cur, ?bf_please, ?bf_stop, ?bf_start; auto.
  destruct R as (b & Hb & Hi). exists b. split; auto. destruct Hu as [X|X]; [congruence|].
  rewrite X in Hb. inversion Hb; subst. now rewrite bf_list.
Qed.

Lemma switch_body_spec a b s (m : mgr) :
  match switch_body a b s m with
  | Rejected m' => please m = false -> start_req m = [] -> stop_req m = [] -> m' = m
  | Ready m' => exists ps qs : list ptr, m' = set_please true (set_start_req (start_req m ++ qs) (set_stop_req (stop_req m ++ ps) m)) /\
      (forall p, In p (ps ++ qs) -> In p (map e_ptr (loaded m)))
  | Thrown _ | Broken => False
  end.
Proof.
  unfold switch_body. set (st := Z.eqb (if Z.eqb s 0 then BEST_EFFORT else s) STRICT). clearbody st.
  assert (Hc : forall (m1 : mgr) ns ps, collect m1 st ns = Some ps -> loaded m1 = loaded m ->
     forall p, In p ps -> In p (map e_ptr (loaded m))).
  { intros m1 ns. induction ns as [|n ns IH]; simpl; intros ps E El p Hp.
    - inversion E; subst. destruct Hp.
    - unfold getControllerByName in E. fold (loaded m1) in E. rewrite El in E.
      destruct (find_entry n (loaded m)) as [e|] eqn:Ef; simpl in E.
      + destruct (collect m1 st ns) as [qs|]; [|discriminate]. inversion E; subst. destruct Hp as [<-|Hp]; eauto.
        apply in_map. now apply find_entry_some in Ef.
      + destruct st; [discriminate|eauto]. }
  destruct (collect m st b) as [ps|] eqn:E1.
  - set (m1 := set_stop_req (stop_req m ++ ps) m).
    destruct (collect m1 st a) as [qs|] eqn:E2.
    + exists ps, qs. split; auto. intros p Hp. apply in_app_or in Hp. destruct Hp; eauto.
    + intros Hp H1 H2. destruct m; simpl in *; subst; reflexivity.
  - intros Hp H1 H2. destruct m; simpl in *; subst; reflexivity.
Qed.

Lemma flip_used_false (m : mgr) : used_cur m -> free_in_use m = false.
Proof. unfold free_in_use, free_list. intros [->| ->]; auto. destruct (cur m); auto. Qed.

Lemma former_in_use_spec (m : mgr) : former_in_use m = false <-> used_cur m.
Proof.
  unfold former_in_use, used_cur. destruct (used m) as [b|].
  - split.
    + intros E. right. destruct b, (cur m); simpl in *; congruence.
    + intros [X|X]; [discriminate|]. inversion X; subst. destruct (cur m); reflexivity.
  - tauto.
Qed.

Lemma flip_core (m : mgr) : Core m -> please m = false -> GoodList m (negb (cur m)) -> Core (flip (resize_stats m)).
Proof.
  intros C Hp G. constructor; simpl; auto.
  - apply good_transfer with m (negb (cur m)); auto.
  - intros p. destruct (co_idle m C Hp) as [-> ->]. intros [].
  - apply C.
  - rewrite set_names_names; auto. now rewrite resize_length.
  - apply C.
Qed.

Lemma used_cur_bframe m m' : bframe m m' -> used_cur m -> used_cur m'.
Proof. intros B. destruct B. unfold used_cur. now rewrite bf_used, bf_cur. Qed.

Lemma th_inv k c r : InvB c -> rosok c = true -> th_step H k (thr c k) c = Some r ->
  match r with
  | Ok c' => InvB c' /\ rosok c' = true /\ rt c' = rt c
  | Abort => exists srv, thr c k = TProg srv PAbort
  | UB | Hang => False
  end.
Proof.
  intros I Hros E.
  assert (Hhold : crit (thr c k) = true -> hold_ok (mg c) (thr c k)).
  { intros X. rewrite <- (holder_eq c k I X). apply I. }
  pose proof (ib_core c I) as C. pose proof (ib_rt c I) as R.
  destruct (thr c k) as [|pr|srv pr|srv cl kk|srv cl kk|srv cl kk|srv cl kk|srv cl kk|srv cl kk|srv cl kk|srv cl kk|srv cl kk|srv kk|srv kk] eqn:Ht;
    cbn [th_step] in E.
  - discriminate.
  - (* TWant *) destruct (srv_lock c) eqn:Hs; [discriminate|]. inversion E; subst; clear E. split; [|simpl; auto].
    unfold with_thr, with_srv; simpl. apply inv_build; auto; try tauto.
    + pose proof (ib_hold c I) as X. unfold holder in X. destruct (ctl_lock c) as [j|] eqn:Hc; auto.
      rewrite set_thr_other; auto. intros ->. apply (ib_ctl c I) in Hc. rewrite Ht in Hc. discriminate.
    + apply lock_keep; [apply I|]. now rewrite Ht.
    + apply lock_take with (g := fun j => j); auto. intros j. rewrite (ib_srv c I j), Hs. tauto.
    + apply lock_keep with (Q := fun j => pub_lock c = Some (OThread j)); [apply I|]. now rewrite Ht.
  - (* TProg *)
    assert (Hm : forall t, crit t = false -> insrv t = srv -> inpub t = false -> InvB (with_thr k t c)).
    { intros t H1 H2 H3. apply inv_move; rewrite ?Ht; auto. rewrite H1. discriminate. }
    destruct pr.
    + inversion E; subst; clear E. destruct srv; split; simpl; auto.
      * unfold with_thr, with_srv; simpl. apply inv_build; auto; try tauto.
        -- pose proof (ib_hold c I) as X. unfold holder in X. destruct (ctl_lock c) as [j|] eqn:Hc; auto.
           rewrite set_thr_other; auto. intros ->. apply (ib_ctl c I) in Hc. rewrite Ht in Hc. discriminate.
        -- apply lock_keep; [apply I|]. now rewrite Ht.
        -- apply lock_free with (g := fun j => j); auto. intros j. rewrite (ib_srv c I j).
           assert (X : srv_lock c = Some k) by (apply (ib_srv c I); now rewrite Ht). rewrite X. tauto.
        -- apply lock_keep with (Q := fun j => pub_lock c = Some (OThread j)); [apply I|]. now rewrite Ht.
    + inversion E; subst. eauto.
    + inversion E; subst. split; auto.
    + destruct (ctl_lock c) eqn:?; inversion E; subst. split; auto.
    + destruct (ctl_lock c) eqn:?; inversion E; subst. split; auto.
    + inversion E; subst. split; auto.
    + inversion E; subst. split; auto.
    + inversion E; subst; clear E. split; [|simpl; auto].
      unfold with_thr, with_mg; simpl. apply inv_build; auto; try tauto.
      * apply core_frame with (mg c); auto using frame_log. eapply trace_nofatal; [apply C|reflexivity|]. nofatal.
      * pose proof (ib_hold c I) as X. unfold holder in X. apply hold_frame with (mg c); auto using frame_log.
        destruct (ctl_lock c) as [j|] eqn:Hc; auto.
        rewrite set_thr_other; auto. intros ->. apply (ib_ctl c I) in Hc. rewrite Ht in Hc. discriminate.
      * apply lock_keep; [apply I|]. now rewrite Ht.
      * apply lock_keep; [apply I|]. now rewrite Ht.
      * apply lock_keep with (Q := fun j => pub_lock c = Some (OThread j)); [apply I|]. now rewrite Ht.
    + inversion E; subst. split; auto.
  - (* TLock *) destruct (ctl_lock c) eqn:Hc; [discriminate|].
    pose proof (ib_hold c I) as X. unfold holder in X. rewrite Hc in X. destruct X as [Hp Hu].
    set (t := match cl with CSwitch _ _ _ => TBody srv cl kk | _ => TWait1 srv cl kk end) in E.
    assert (Htt : crit t = true /\ insrv t = srv /\ inpub t = false /\ hold_ok (mg c) t).
    { unfold t. destruct cl; simpl; unfold hold_ok; intuition. }
    clearbody t. destruct Htt as (H1 & H2 & H3 & H4).
    inversion E; subst; clear E. split; [|simpl; auto].
    unfold with_thr, with_ctl; simpl. apply inv_build; auto; try tauto.
    + now rewrite set_thr_same.
    + apply lock_take with (g := fun j => j); auto. intros j. rewrite (ib_ctl c I j), Hc. tauto.
    + apply lock_keep; [apply I|]. now rewrite Ht.
    + apply lock_keep with (Q := fun j => pub_lock c = Some (OThread j)); [apply I|]. now rewrite Ht.
  - (* TWait1 *) destruct (Hhold eq_refl) as (Hp & Hu & Hs). rewrite (flip_used_false _ Hu), andb_false_r in E.
    inversion E; subst. split; auto. apply inv_move; rewrite ?Ht; auto. intros _. simpl. auto.
  - (* TWait1b *) destruct (Hhold eq_refl) as (Hp & Hu & Hs). rewrite Hros in E. inversion E; subst.
    split; auto. apply inv_move; rewrite ?Ht; auto.
  - (* TBody *) destruct (Hhold eq_refl) as (Hp & Hu). pose proof (core_inv (mg c) C Hu) as Iv.
    destruct (co_idle _ C Hp) as [Hr1 Hr2].
    assert (Hrej : forall m' pr, bframe (mg c) m' -> InvB (ret k srv pr (with_mg m' c))).
    { intros m' pr B. apply inv_ret; rewrite ?Ht; auto.
      - now apply bframe_core with (mg c).
      - now apply bframe_rt with (mg c).
      - destruct B. now rewrite bf_please.
      - now apply used_cur_bframe with (mg c). }
    assert (Hready : forall m', bframe (mg c) m' -> GoodList m' (negb (cur (mg c))) -> shape m' cl ->
        InvB (with_thr k (TPub srv cl kk) (with_mg m' c))).
    { intros m' B G S. unfold with_thr, with_mg; simpl. apply inv_build; auto; try tauto.
      - now apply bframe_core with (mg c).
      - now apply bframe_rt with (mg c).
      - assert (Hc : ctl_lock c = Some k) by (apply (ib_ctl c I); now rewrite Ht).
        rewrite Hc, set_thr_same. simpl. pose proof (used_cur_bframe _ _ B Hu). destruct B.
        rewrite bf_please, bf_cur. auto.
      - apply lock_keep; [apply I|]. now rewrite Ht.
      - apply lock_keep; [apply I|]. now rewrite Ht.
      - apply lock_keep with (Q := fun j => pub_lock c = Some (OThread j)); [apply I|]. now rewrite Ht. }
    destruct cl as [env n|n|a b s]; cbn [body] in E.
    + pose proof (load_body_frame H env n (mg c)) as B.
      pose proof (fun m' => load_ready H env n (mg c) m' Iv Hp) as Hrd.
      destruct (load_spec H env n (mg c) Iv Hp) as (a & m2 & El & _). unfold loadController in El.
      destruct (load_body H env n (mg c)) as [m'|m'|m'|]; try discriminate; inversion E; subst; clear E; (split; [|simpl; auto]); auto.
      destruct (Hrd _ eq_refl) as (G & Hn & Hl & Hst). apply Hready; auto.
      destruct B. simpl. unfold loaded_names, loaded in *. rewrite bf_cur, bf_list. split; auto.
      exists (next (mg c)). split; auto. split; [congruence|]. intros Hin. apply in_map_iff in Hin.
      destruct Hin as (e & He & Hin). pose proof (gl_lt _ _ (co_cur _ C) e Hin). lia.
    + pose proof (unload_body_frame n (mg c)) as B.
      pose proof (fun m' => unload_ready n (mg c) m' Iv Hp) as Hrd.
      destruct (unload_spec n (mg c) Iv Hp) as (a & m2 & El & _). unfold unloadController in El.
      destruct (unload_body n (mg c)) as [m'|m'|m'|]; try discriminate; inversion E; subst; clear E; (split; [|simpl; auto]);
        try (apply Hrej; tauto).
      destruct (Hrd _ eq_refl) as (G & Hl & (e & He & Hn & _) & Hd). destruct B as (B & Bh & _). apply Hready; auto.
      destruct B. simpl. unfold loaded_names, loaded in *. rewrite bf_cur, bf_list. split; eauto. split; auto.
      intros (e' & Hin & Hd'). apply Hd. exists e'. unfold loaded in *. rewrite bf_cur, bf_list in Hin. split; auto.
      unfold dep_names in *. now rewrite Bh in Hd'.
    + pose proof (switch_body_spec a b s (mg c)) as Sw.
      destruct (switch_body a b s (mg c)) as [m'|m'|m'|]; try tauto.
      * inversion E; subst; clear E. split; [|simpl; auto]. rewrite (Sw Hp Hr1 Hr2).
        apply inv_ret; rewrite ?Ht; auto.
      * destruct Sw as (ps & qs & -> & Hin). rewrite Hr1, Hr2 in E. simpl in E.
        inversion E; subst; clear E. split; [|simpl; auto].
        unfold with_thr, with_mg; simpl.
        match goal with |- InvB (mkConfig ?x _ _ _ _ _ _ _ _) => set (m' := x) end.
        apply inv_build; auto; try tauto.
        -- constructor; simpl; try apply C.
           ++ apply good_transfer with (mg c) (cur (mg c)); auto. apply C.
           ++ intros p Hp'. apply Hin. rewrite in_app_iff in *. tauto.
           ++ discriminate.
           ++ intros X. apply in_app_or in X. destruct X as [X|X]; [now apply C in X|]. revert X. nofatal.
        -- destruct (rt c) as [|x| |x|x|x| | |x| | |x|x|]; simpl in *; auto; try (exfalso; destruct R as (_ & R & _); congruence).
           exfalso. destruct R; congruence.
        -- assert (Hc : ctl_lock c = Some k) by (apply (ib_ctl c I); now rewrite Ht).
           rewrite Hc, set_thr_same. exact Hu.
        -- apply lock_keep; [apply I|]. now rewrite Ht.
        -- apply lock_keep; [apply I|]. now rewrite Ht.
        -- apply lock_keep with (Q := fun j => pub_lock c = Some (OThread j)); [apply I|]. now rewrite Ht.
  - (* TPub *) destruct (Hhold eq_refl) as (Hp & Hu & G & S).
    destruct (pub_lock c) eqn:Hpl; [discriminate|]. inversion E; subst; clear E. split; [|simpl; auto].
    unfold with_thr, with_pub; simpl. apply inv_build; auto; try tauto.
    + assert (Hc : ctl_lock c = Some k) by (apply (ib_ctl c I); now rewrite Ht).
      rewrite Hc, set_thr_same. simpl. auto.
    + apply lock_keep; [apply I|]. now rewrite Ht.
    + apply lock_keep; [apply I|]. now rewrite Ht.
    + apply lock_take with (g := OThread); auto; [|congruence]. intros j. rewrite (ib_pub c I j), Hpl. tauto.
    + rewrite Hpl. split; discriminate.
  - (* TFlip *) destruct (Hhold eq_refl) as (Hp & Hu & G & S).
    inversion E; subst; clear E. split; [|simpl; auto].
    unfold with_thr, with_mg; simpl. apply inv_build; auto; try tauto.
    + now apply flip_core.
    + destruct (rt c) as [|x| |x|x|x| | |x| | |x|x|] eqn:Hr; simpl in *; auto.
      intros X. exfalso. destruct Hu as [Y|Y]; [congruence|]. rewrite Y in X. inversion X.
      destruct (cur (mg c)); discriminate.
    + assert (Hc : ctl_lock c = Some k) by (apply (ib_ctl c I); now rewrite Ht).
      rewrite Hc, set_thr_same. simpl. split; auto. right.
      apply good_transfer with (mg c) (cur (mg c)); simpl; auto; try (rewrite Bool.negb_involutive; reflexivity). apply C.
    + apply lock_keep; [apply I|]. now rewrite Ht.
    + apply lock_keep; [apply I|]. now rewrite Ht.
    + apply lock_keep with (Q := fun j => pub_lock c = Some (OThread j)); [apply I|]. now rewrite Ht.
  - (* TWait2 *) destruct (Hhold eq_refl) as (Hp & G). rewrite Hros in E. simpl in E.
    destruct (former_in_use (mg c)) eqn:Hf; inversion E; subst; (split; [|auto]); apply inv_move; rewrite ?Ht; auto.
    intros _. simpl. split; auto. now apply former_in_use_spec.
  - (* TWait2b *) destruct (Hhold eq_refl) as (Hp & G). rewrite Hros in E. inversion E; subst.
    split; auto. apply inv_move; rewrite ?Ht; auto.
  - (* TClear *) destruct (Hhold eq_refl) as (Hp & Hu).
    inversion E; subst; clear E. split; [|simpl; auto].
    unfold ret, with_thr, with_ctl, with_pub, with_mg; simpl. apply inv_build; auto; try tauto.
    + destruct C. constructor; simpl; auto; unfold loaded in *; simpl; rewrite ?negb_upd; auto.
      apply good_transfer with (mg c) (cur (mg c)); simpl; auto using negb_upd.
    + destruct (rt c); simpl in *; auto. destruct R as (b & Hb & Hi). exists b. split; auto.
      destruct Hu as [X|X]; [congruence|]. rewrite X in Hb. inversion Hb; subst. rewrite negb_upd. auto.
    + apply lock_free with (g := fun j => j); auto. intros j. rewrite (ib_ctl c I j).
      assert (X : ctl_lock c = Some k) by (apply (ib_ctl c I); now rewrite Ht). rewrite X. tauto.
    + apply lock_keep; [apply I|]. now rewrite Ht.
    + apply lock_free with (g := OThread); auto; [|congruence]. intros j. rewrite (ib_pub c I j).
      assert (X : pub_lock c = Some (OThread k)) by (apply (ib_pub c I); now rewrite Ht). rewrite X. tauto.
    + assert (X : pub_lock c = Some (OThread k)) by (apply (ib_pub c I); now rewrite Ht). rewrite X. split; discriminate.
  - (* TSw *) pose proof (Hhold eq_refl) as Hu. simpl in Hu. rewrite Hros in E. simpl in E.
    destruct (please (mg c)) eqn:Hp; inversion E; subst; clear E; (split; [|simpl; auto]).
    + apply inv_move; rewrite ?Ht; auto; intros _; exact Hu.
    + apply inv_ret; rewrite ?Ht; auto.
      * apply core_frame with (mg c); auto using frame_log. eapply trace_nofatal; [apply C|reflexivity|]. nofatal.
  - (* TSwb *) pose proof (Hhold eq_refl) as Hu. simpl in Hu. rewrite Hros in E. inversion E; subst.
    split; auto. apply inv_move; rewrite ?Ht; auto.
Qed.

Lemma bstep_inv l c r : (0 < h_per_mech H)%Z -> (0 < h_per_js H)%Z ->
  InvB c -> rosok c = true -> bstep H l c = Some r -> (forall a b, l = LRt a b -> ~ stale_start c) ->
  match r with
  | Ok c' => rosok c' = true -> InvB c'
  | Abort => exists k srv, l = LTh k /\ thr c k = TProg srv PAbort
  | UB | Hang => False
  end.
Proof.
  intros Hpm Hpj I Hros E Hst. destruct l as [a b|k|k srv pr| | | |f]; cbn [bstep] in E.
  - destruct (do_rt_inv c a b Hpm Hpj I (Hst a b eq_refl)) as (c' & E' & I' & _). rewrite E' in E. inversion E; auto.
  - pose proof (th_inv k c r I Hros E) as X. destruct r; auto; try tauto. destruct X; eauto.
  - destruct (thr c k) eqn:Ht; inversion E; subst. intros _. apply inv_move; rewrite ?Ht; destruct srv; auto; discriminate.
  - destruct (pub_lock c) eqn:Hp; inversion E; subst. intros _. constructor; simpl; try apply I.
    + intros k. rewrite (ib_pub c I k), Hp. split; discriminate.
    + rewrite (ib_fill c I), Hp. split; discriminate.
  - destruct (pub_lock c) as [[| |]|] eqn:Hp; inversion E; subst. intros _. constructor; simpl; try apply I.
    + intros k. rewrite (ib_pub c I k), Hp. split; discriminate.
    + rewrite (ib_fill c I), Hp. split; discriminate.
  - inversion E; subst. discriminate.
  - inversion E; subst. intros _. constructor; simpl; try apply I.
    + apply core_frame with (mg c); try apply I; auto. apply frame_world.
    + unfold holder; simpl. apply hold_frame with (mg c); [apply frame_world|]. apply I.
Qed.

(* ------------------------------------------------------------------ runs *)
Lemma rosok_back l c c' : bstep H l c = Some (Ok c') -> rosok c' = true -> rosok c = true.
Proof.
  intros E. destruct l as [a b|k|k srv pr| | | |f]; cbn [bstep] in E.
  - unfold do_rt in E. destruct (rt_step H _ a b (rt c) (mg c)) as [[m' pc']| | |]; inversion E; subst; auto.
  - destruct (thr c k); cbn [th_step] in E;
      repeat match type of E with context [match ?x with _ => _ end] => destruct x end;
      inversion E; subst; auto.
  - destruct (thr c k); inversion E; subst; auto.
  - destruct (pub_lock c); inversion E; subst; auto.
  - destruct (pub_lock c) as [[| |]|]; inversion E; subst; auto.
  - inversion E; subst; discriminate.
  - inversion E; subst; auto.
Qed.

Lemma quiet_inv m : Inv m -> please m = false -> InvB (quiet m).
Proof.
  intros I Hp. constructor; simpl; auto; try (intros; split; discriminate).
  - constructor; try apply I. now apply good_of_inv.
  - split; auto. apply I.
  - split; [intros (t & X); discriminate|discriminate].
Qed.

Theorem steady_inv m ls c : (0 < h_per_mech H)%Z -> (0 < h_per_js H)%Z ->
  Inv m -> please m = false -> steady H (quiet m) ls c -> rosok c = true -> InvB c.
Proof.
  intros Hpm Hpj I Hp S. remember (quiet m) as c0 eqn:E0. induction S as [c|c ls c1 l c2 S IH E Hst]; intros Hr; subst.
  - now apply quiet_inv.
  - pose proof (rosok_back _ _ _ E Hr) as Hr1.
    pose proof (bstep_inv l c1 _ Hpm Hpj (IH eq_refl Hr1) Hr1 E Hst) as X. simpl in X. auto.
Qed.
End CInv.
