(** C96: the life of every controller object, under every interleaving. *)
From Coq Require Import List String Arith Bool ZArith Lia.
From Verif.Model Require Import Base Scheduler Controller Manager ManagerConc.
From Verif.Spec Require Import ControllerSpec SchedulerSpec ManagerSpec ConcSpec LifeSpec.
From Verif.Proofs Require Import SchedulerProofs ManagerProofs ManagerInv ManagerOps ConcBase ConcInv ConcTrace ConcCycle ConcProgress LifeConc.
From Verif.Props Require Import ControllerProps ManagerProps ConcProps.
Import ListNotations.

(* ------------------------------------------------------------------ one object *)
Lemma later_callbacks rs : forallb is_start_stop_update rs = true -> forall s d bs h s' d', do_requests rs (s, d) = (bs, h, (s', d')) ->
  (forall b, ~ In (CbInit b) h) /\ (s = CONSTRUCTED -> h = [] /\ s' = CONSTRUCTED) /\ (s <> CONSTRUCTED -> s' <> CONSTRUCTED).
Proof.
  induction rs as [|r rs IH]; intros F s d bs h s' d' E; cbn [do_requests] in E; [injection E as <- <- <- <-; cbn; tauto|].
  cbn in F. apply andb_true_iff in F. destruct F as [F1 F2].
  assert (HD : exists b cbs s1, do_request r (s, d) = (b, cbs, (s1, d)) /\ (forall x, ~ In (CbInit x) cbs) /\ (s = CONSTRUCTED -> cbs = [] /\ s1 = CONSTRUCTED) /\ (s <> CONSTRUCTED -> s1 <> CONSTRUCTED)).
  { destruct r; [discriminate| | |]; destruct s; cbn; do 3 eexists; (split; [reflexivity|]); cbn; repeat split; try congruence; intros; intuition congruence. }
  destruct HD as (b & cbs & s1 & E0 & A1 & A2 & A3). rewrite E0 in E. destruct (do_requests rs (s1, d)) as [[bs2 h2] [s2 d2]] eqn:E2. injection E as <- <- <- <-.
  destruct (IH F2 _ _ _ _ _ _ E2) as (B1 & B2 & B3). split; [intros x IN; apply in_app_or in IN; destruct IN as [IN|IN]; [exact (A1 _ IN)|exact (B1 _ IN)]|]. split.
  - intros C. destruct (A2 C) as [-> C1]. destruct (B2 C1) as [-> C2]. split; [reflexivity|exact C2].
  - auto.
Qed.
Lemma one_life prov pr rs bs h s d : forallb is_start_stop_update rs = true -> do_requests (RInit prov pr :: rs) new_obj = (bs, h, (s, d)) ->
  exists ok rest, h = CbInit ok :: rest /\ (ok = false -> rest = []) /\ (forall b, ~ In (CbInit b) rest) /\ update_only_started rest /\ (s <> CONSTRUCTED -> ok = true).
Proof.
  intros F E. pose proof (C06_callback_protocol _ _ _ _ E) as [_ U]. cbn [do_requests] in E.
  assert (HD : exists b ok s1 d1, do_request (RInit prov pr) new_obj = (b, [CbInit ok], (s1, d1)) /\ (ok = false -> s1 = CONSTRUCTED)).
  { unfold new_obj. cbn [do_request]. unfold initRequest. destruct (run_init prov pr no_deps) as [[[]|] d1]; do 4 eexists; (split; [reflexivity|]); congruence || reflexivity. }
  destruct HD as (b & ok & s1 & d1 & E0 & K). rewrite E0 in E. destruct (do_requests rs (s1, d1)) as [[bs2 h2] [s2 d2]] eqn:E2. injection E as <- <- <- <-.
  destruct (later_callbacks rs F _ _ _ _ _ _ E2) as (B1 & B2 & B3). exists ok, h2. split; [reflexivity|]. split; [intros OK; apply (B2 (K OK))|]. split; [exact B1|]. split.
  - intros pre post EQ. destruct (U (CbInit ok :: pre) post) as (p1 & p2 & X & Y); [cbn; now rewrite EQ|].
    destruct p1 as [|z p1]; cbn in X; [discriminate|]. injection X as _ X. now exists p1, p2.
  - intros NC. destruct ok; [reflexivity|]. destruct (B2 (K eq_refl)) as [_ X]. contradiction.
Qed.

Section Theorems.
Context {W : Type} (H : hooks W).
Notation mgr := (mgr W).
Notation config := (config W).

Lemma everywhere (m : mgr) ls (c : config) : reachable H m -> steps H (quiet m) ls c -> fine_c c.
Proof. intros R S. eapply steps_fine; [exact S|]. apply quiet_fine. exact (reach_sound H m R). Qed.

(** Whatever the clients do and however their calls are interleaved with the control cycles (start-up and shutdown
    included): the callbacks ever made on any one controller object form a proper life. *)
Theorem C96_every_life_is_proper : forall (m : mgr) ls (c : config) (p : ptr), reachable H m -> steps H (quiet m) ls c ->
  a_life (callbacks_of p (trace (mg c))).
Proof.
  intros m ls c p R S. destruct (everywhere m ls c R S) as [[L _] _]. specialize (L p). unfold life_at in L. destruct (Nat.ltb p (next (mg c))); [|left; exact L].
  destruct L as (prov & pr & rs & F & bs & E). right. destruct (one_life _ _ _ _ _ _ _ F E) as (ok & rest & A & B & C & D & _). exists ok, rest. auto.
Qed.

(** A controller in a list has been initialised successfully, and the manager takes it for running (as list_controllers,
    unload and the restart of halted motors do) exactly if starting was called on it and stopping not since. *)
Theorem C96_listed_controllers : forall (m : mgr) ls (c : config) b e, reachable H m -> steps H (quiet m) ls c -> In e (lists (mg c) b) ->
  (exists rest, callbacks_of (e_ptr e) (trace (mg c)) = CbInit true :: rest) /\
  (running (mg c) (e_ptr e) <-> started (callbacks_of (e_ptr e) (trace (mg c)))).
Proof.
  intros m ls c b e R S IN. destruct (everywhere m ls c R S) as [[L [B _]] _]. destruct (B b e IN) as [LT NC]. specialize (L (e_ptr e)). unfold life_at in L.
  apply Nat.ltb_lt in LT. rewrite LT in L. destruct L as (prov & pr & rs & F & bs & E). split.
  - destruct (one_life _ _ _ _ _ _ _ F E) as (ok & rest & A & _ & _ & _ & K). rewrite (K NC) in A. now exists rest.
  - pose proof (C06_isRunning_iff_started _ _ _ _ _ E) as K. rewrite <- K. unfold running. fold (state_of (mg c) (e_ptr e)). destruct (state_of (mg c) (e_ptr e)); cbn; split; congruence.
Qed.
End Theorems.

Section Live.
Context {W : Type} (H : hooks W) (HP : positive_periods H).
Notation mgr := (mgr W).
Notation config := (config W).
Let Hpm : (0 < h_per_mech H)%Z := proj1 HP.
Let Hpj : (0 < h_per_js H)%Z := proj2 HP.

Lemma live_fine (c : config) : live H c -> fine_c c.
Proof.
  intros (m & ls & R & _ & S & _). assert (S' : steps H (quiet m) ls c) by (clear R; induction S; [constructor|econstructor; eauto]).
  exact (everywhere H m ls c R S').
Qed.
Lemma no_new p (m m' : mgr) : new_events m m' = [] \/ ~ In p (flat_map (fun e => match e with EvCb q _ => [q] | _ => [] end) (new_events m m')) ->
  trace m' = trace m ++ new_events m m' -> callbacks_of p (trace m') = callbacks_of p (trace m).
Proof.
  intros N ->. rewrite callbacks_app. assert (X : callbacks_of p (new_events m m') = []); [|now rewrite X, app_nil_r].
  destruct N as [->|N]; [reflexivity|]. induction (new_events m m') as [|e es IH]; [reflexivity|]. unfold callbacks_of. cbn [flat_map] in *.
  rewrite in_app_iff in N. destruct e as [q cb| | | | | | | | | | |]; cbn [app] in *; try (apply IH; tauto).
  destruct (Nat.eqb_spec q p) as [->|NE]; [exfalso; apply N; left; now left|]. apply IH. tauto.
Qed.
Lemma dead_step p (c c' : config) l : live H c -> rosok c' = true -> bstep H l c = Some (Ok c') -> (forall a b, l = LRt a b -> ~ stale_start c) ->
  p < next (mg c) -> ~ alive (mg c) p ->
  p < next (mg c') /\ ~ alive (mg c') p /\ callbacks_of p (trace (mg c')) = callbacks_of p (trace (mg c)).
Proof.
  intros L Hr E NS LT D. destruct (live_fine c L) as [S _].
  assert (TH : by_thread (mg c) (mg c') -> p < next (mg c') /\ ~ alive (mg c') p /\ callbacks_of p (trace (mg c')) = callbacks_of p (trace (mg c))).
  { intros (_ & NR & N & T & _). split; [lia|]. split; [|now apply T]. intros (b & e & IN & <-). destruct (NR b e IN) as [(b' & IN')|GE]; [apply D; exists b', e; auto|lia]. }
  assert (ID : by_thread (mg c) (mg c)) by (apply by_thread_same; auto; eauto).
  destruct l as [a b|k|k srv pr| | | |f].
  - destruct (C27_realtime_never_destroys H a b c c' E) as (E1 & _ & _ & E4 & _).
    split; [now rewrite E4|]. split; [intros (x & e & IN & X); rewrite E1 in IN; apply D; exists x, e; auto|].
    pose proof (C26_callbacks_on_live_controllers H HP a b c c') as C26.
    pose proof (live_inv H Hpm Hpj c L) as I. cbn [bstep] in E. pose proof E as E'. injection E as E.
    destruct (do_rt_desc H Hpm Hpj a b c c' I (NS _ _ eq_refl) E) as (evs & T & _ & _).
    apply no_new; [|rewrite (new_events_app _ _ _ T); exact T]. right. intros IN. apply in_flat_map in IN. destruct IN as (ev & IN & IN2).
    destruct ev as [q cb| | | | | | | | | | |]; try destruct IN2. { subst q. apply D. eapply C26; eauto. } contradiction.
  - cbn [bstep] in E. apply TH. exact (proj1 (th_by H k c c' S E)).
  - cbn [bstep] in E. destruct (thr c k); try discriminate. injection E as <-. apply TH. exact ID.
  - cbn [bstep] in E. destruct (pub_lock c); [discriminate|]. injection E as <-. apply TH. exact ID.
  - cbn [bstep] in E. destruct (pub_lock c) as [[| |]|]; try discriminate; injection E as <-; apply TH; exact ID.
  - cbn [bstep] in E. injection E as <-. apply TH. exact ID.
  - cbn [bstep] in E. injection E as <-. apply TH. apply by_thread_same; auto; cbn; eauto.
Qed.

(** Once neither list holds a controller any more (it is destroyed then) no callback is made on it ever again, and it
    does not come back. *)
Theorem C96_nothing_after_destruction : forall (c : config) ls (c' : config) (p : ptr), live H c -> steady H c ls c' -> rosok c' = true ->
  callbacks_of p (trace (mg c)) <> [] -> ~ alive (mg c) p ->
  ~ alive (mg c') p /\ callbacks_of p (trace (mg c')) = callbacks_of p (trace (mg c)).
Proof.
  intros c ls c' p L S Hr NE D. assert (LT : p < next (mg c)).
  { destruct (live_fine c L) as [[X _] _]. specialize (X p). unfold life_at in X. destruct (Nat.ltb_spec p (next (mg c))); [assumption|contradiction]. }
  cut (live H c' /\ p < next (mg c') /\ ~ alive (mg c') p /\ callbacks_of p (trace (mg c')) = callbacks_of p (trace (mg c))); [tauto|]. clear NE.
  induction S as [c|c ls c1 l c2 S IH E NS]; [tauto|].
  assert (R1 : rosok c1 = true) by (eapply rosok_back; eauto).
  assert (IH2 := IH); clear IH; assert (Q : live H c1 /\ p < next (mg c1) /\ ~ alive (mg c1) p /\ callbacks_of p (trace (mg c1)) = callbacks_of p (trace (mg c))) by (apply IH2; assumption). destruct Q as (L1 & LT1 & D1 & T1). destruct (dead_step p c1 c2 l L1 Hr E NS LT1 D1) as (LT2 & D2 & T2).
  split; [eapply live_step; eauto|]. split; [exact LT2|]. split; [exact D2|]. now rewrite T2.
Qed.

(* ------------------------------------------------------------------ every cycle *)
(** the state in which the last cycle took its list *)
Definition snap_ok (c : config) : Prop := sound (snap c) /\ forall b, used (snap c) = Some b -> GoodList (snap c) b.
Lemma snap_step (c c' : config) l : live H c -> rosok c' = true -> bstep H l c = Some (Ok c') -> (forall a b, l = LRt a b -> ~ stale_start c) -> snap_ok c -> snap_ok c'.
Proof.
  intros L Hr E NS S. assert (SAME : forall c2 : config, snap c2 = snap c -> snap_ok c2) by (intros c2 X; unfold snap_ok; now rewrite X).
  destruct l as [a b|k|k srv pr| | | |f].
  - assert (L' : live H c') by (eapply live_step; eauto). pose proof (live_inv H Hpm Hpj c' L') as I'. pose proof (live_fine c' L') as [S' _].
    cbn [bstep] in E. injection E as E. unfold do_rt in E. destruct (rt_step H _ a b (rt c) (mg c)) as [[m' pc']| | |]; cbn [bind] in E; try discriminate. injection E as <-.
    cbn [mg snap] in *. destruct (rt c); try (apply SAME; reflexivity). split; [exact S'|]. intros bb U. exact (used_good _ bb I' U).
  - cbn [bstep] in E. apply SAME.
    destruct (thr c k) as [|pr|srv pr|srv cl kk|srv cl kk|srv cl kk|srv cl kk|srv cl kk|srv cl kk|srv cl kk|srv cl kk|srv cl kk|srv kk|srv kk]; cbn [th_step] in E;
      repeat match type of E with
      | match ?x with _ => _ end = _ => destruct x
      | Some (Ok (if ?x then _ else _)) = _ => destruct x
      end; try discriminate; injection E as <-; try reflexivity; try (destruct srv; reflexivity); repeat match goal with |- context [if ?x then _ else _] => destruct x end; reflexivity.
  - cbn [bstep] in E. destruct (thr c k); try discriminate. injection E as <-. apply SAME. reflexivity.
  - cbn [bstep] in E. destruct (pub_lock c); [discriminate|]. injection E as <-. apply SAME. reflexivity.
  - cbn [bstep] in E. destruct (pub_lock c) as [[| |]|]; try discriminate; injection E as <-; apply SAME; reflexivity.
  - cbn [bstep] in E. injection E as <-. apply SAME. reflexivity.
  - cbn [bstep] in E. injection E as <-. apply SAME. reflexivity.
Qed.
Lemma live_snap (c : config) : live H c -> snap_ok c.
Proof.
  intros (m & ls & R & P & S & Ho). remember (quiet m) as c0 eqn:E0.
  induction S as [c|c ls c1 l c2 S IH E NS]; subst c.
  - split; [exact (reach_sound H m R)|]. cbn. intros b U. assert (L0 : live H (quiet m)) by (exists m, []; repeat (split; auto); constructor).
    exact (used_good _ b (live_inv H Hpm Hpj _ L0) U).
  - assert (R1 : rosok c1 = true) by (eapply rosok_back; eauto). eapply snap_step; eauto. exists m, ls. repeat (split; auto).
Qed.
Lemma count_app p a b : count_updates p (a ++ b) = count_updates p a + count_updates p b.
Proof. unfold count_updates. now rewrite filter_app, app_length. Qed.
Lemma count_none p l : (forall e, In e l -> is_update_of p e = false) -> count_updates p l = 0.
Proof.
  intros Hl. unfold count_updates. induction l as [|e l IH]; cbn; auto. rewrite (Hl e (or_introl eq_refl)). apply IH. intros x IN. apply Hl. now right.
Qed.
Lemma count_update_evs (m : mgr) p ps : NoDup ps -> count_updates p (update_evs m ps) = if in_dec Nat.eq_dec p ps then if runningb m p then 1 else 0 else 0.
Proof.
  induction ps as [|q ps IH]; intros N; [reflexivity|]. inversion N as [|? ? N1 N2]; subst. unfold update_evs in *. cbn [flat_map]. rewrite count_app, (IH N2).
  assert (Q : count_updates p (if runningb m q then [EvCb q CbUpdate] else []) = if Nat.eq_dec q p then if runningb m p then 1 else 0 else 0).
  { assert (ONE : count_updates p [EvCb q CbUpdate] = if Nat.eqb p q then 1 else 0) by (unfold count_updates; cbn; destruct (Nat.eqb p q); reflexivity).
    destruct (Nat.eq_dec q p) as [->|NE].
    - destruct (runningb m p); [rewrite ONE, Nat.eqb_refl|]; reflexivity.
    - destruct (runningb m q); [rewrite ONE|reflexivity]. destruct (Nat.eqb_spec p q); [congruence|reflexivity]. }
  rewrite Q. destruct (Nat.eq_dec q p) as [->|NE]; destruct (in_dec Nat.eq_dec p (_ :: ps)) as [I1|I1]; destruct (in_dec Nat.eq_dec p ps) as [I2|I2]; try tauto; try lia.
  - exfalso. apply I1. now left.
  - exfalso. destruct I1; congruence.
  - exfalso. apply I1. now right.
Qed.

(** No update is missed and none is made twice: a completed cycle calls update exactly once on each controller of the list
    it took on which starting had been called and stopping not since, and on nobody else - whatever the clients did
    meanwhile. *)
Theorem C96_every_cycle_updates_the_started : forall c : config, live H c -> rt c = RIdle -> cyc c <> [] ->
  exists b, used (snap c) = Some b /\
  (forall e, In e (lists (snap c) b) -> started (callbacks_of (e_ptr e) (trace (snap c))) -> count_updates (e_ptr e) (cyc c) = 1) /\
  (forall p, ~ (In p (map e_ptr (lists (snap c) b)) /\ started (callbacks_of p (trace (snap c)))) -> count_updates p (cyc c) = 0).
Proof.
  intros c L R NE. destruct (C17_cycle_events_concurrent H HP c L R) as [X|FC]; [contradiction|].
  destruct (live_snap c L) as [[LF [BF _]] SG]. destruct FC as (again & pubs & body & tail & EQ & PB & (b & U & BD) & _ & TL).
  pose proof (SG b U) as G. exists b. split; [exact U|].
  assert (ST : forall e, In e (lists (snap c) b) -> (started (callbacks_of (e_ptr e) (trace (snap c))) <-> runningb (snap c) (e_ptr e) = true)).
  { intros e IN. destruct (BF b e IN) as [LT NC]. specialize (LF (e_ptr e)). unfold life_at in LF. apply Nat.ltb_lt in LT. rewrite LT in LF.
    destruct LF as (prov & pr & rs & F & bs & E). pose proof (C06_isRunning_iff_started _ _ _ _ _ E) as K. rewrite <- K. unfold runningb. reflexivity. }
  assert (PM : forall p, In p (order_of (snap c) b) <-> In p (map e_ptr (lists (snap c) b))).
  { intros p. rewrite order_of_map. pose proof (Permutation.Permutation_map e_ptr (order_in_list_perm (snap c) b G)) as PP. split; apply Permutation.Permutation_in; [exact PP|now symmetry]. }
  assert (CNT : forall p, count_updates p (cyc c) = if in_dec Nat.eq_dec p (order_of (snap c) b) then if runningb (snap c) p then 1 else 0 else 0).
  { intros p. rewrite EQ, BD, !count_app, (count_update_evs _ _ _ (order_of_nodup _ _ G)).
    assert (Z1 : count_updates p (if again then restart_evs (snap c) (order_of (snap c) b) else []) = 0).
    { destruct again; [|reflexivity]. apply count_none. intros e IN. unfold restart_evs in IN. apply in_flat_map in IN. destruct IN as (q & _ & IN).
      destruct (runningb (snap c) q); [|destruct IN]. destruct IN as [<-|[<-|[]]]; reflexivity. }
    assert (Z2 : count_updates p pubs = 0).
    { apply count_none. intros e IN. rewrite forallb_forall in PB. specialize (PB e IN). destruct e; try discriminate; reflexivity. }
    assert (Z3 : count_updates p tail = 0).
    { destruct TL as [->|(st & sa & ->)]; [reflexivity|]. apply count_none. intros e IN. unfold stop_evs, start_evs in IN. rewrite !in_app_iff, !in_map_iff in IN.
      destruct IN as [(q & <- & _)|[(q & <- & _)|[<-|[]]]]; reflexivity. }
    rewrite Z1, Z2, Z3. change (count_updates p [EvPropagate; EvZero]) with 0. change (count_updates p [EvEnforce; EvEffort]) with 0. lia. }
  split.
  - intros e IN SD. rewrite CNT. apply (ST e IN) in SD. rewrite SD. destruct (in_dec _ _ _) as [|N]; [reflexivity|]. exfalso. apply N, PM. now apply in_map.
  - intros p NS. rewrite CNT. destruct (in_dec _ _ _) as [IN|]; [|reflexivity]. destruct (runningb (snap c) p) eqn:RB; [|reflexivity]. exfalso. apply NS.
    apply PM in IN. split; [exact IN|]. apply in_map_iff in IN. destruct IN as (e & <- & IN). now apply (ST e IN).
Qed.
End Live.

(* ------------------------------------------------------------------ the hypotheses are met *)
(** "a" is object 0: started, updated, and stopped by the switch that starts "c", object 4 *)
Example C96_ex : let c := reached exH switch_run ex1 in live exH c /\
  map e_ptr (loaded (mg c)) = [0; 1; 4] /\
  callbacks_of 0 (trace (mg c)) = [CbInit true; CbStarting; CbUpdate; CbStopping] /\
  callbacks_of 4 (trace (mg c)) = [CbInit true; CbStarting; CbUpdate] /\
  callbacks_of 2 (trace (mg c)) = [CbInit false].
Proof. cbv zeta. split; [ex_live|]. vm_compute. do 3 (split; [reflexivity|]). reflexivity. Qed.

(** "c" is unloaded while the realtime thread is in its cycle *)
Definition destroy_run : list (label exW) := rts 5 ++ [LStart 0 true (unload_service "c")] ++ ths 0 9 ++ rts 12 ++ ths 0 3.
Example C96_ex_destroyed : let c := reached exH destroy_run ex1 in live exH c /\
  callbacks_of 4 (trace (mg c)) = [CbInit true] /\ ~ alive (mg c) 4.
Proof.
  cbv zeta. split; [ex_live|]. split; [vm_compute; reflexivity|].
  intros (b & e & IN & E). assert (X : forallb (fun x => negb (Nat.eqb (e_ptr x) 4)) (lists (mg (reached exH destroy_run ex1)) b) = true) by (destruct b; vm_compute; reflexivity).
  rewrite forallb_forall in X. specialize (X e IN). rewrite E in X. discriminate.
Qed.

(** "a" and "b" run when the cycle begins and are updated; "c" (object 4) is started at its end *)
Example C96_ex_cycle : let c := reached exH cycle_run ex1 in live exH c /\ rt c = RIdle /\ cyc c <> [] /\
  callbacks_of 0 (trace (snap c)) = [CbInit true; CbStarting] /\ callbacks_of 4 (trace (snap c)) = [CbInit true] /\
  map (fun p => count_updates p (cyc c)) [0; 1; 4] = [1; 1; 0].
Proof. cbv zeta. split; [ex_live|]. vm_compute. split; [reflexivity|]. split; [discriminate|]. auto. Qed.
