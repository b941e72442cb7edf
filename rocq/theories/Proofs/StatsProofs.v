(** The statistics part of a control cycle. *)
From Coq Require Import List String Arith Bool ZArith Lia Sorting.Permutation.
From Verif.Model Require Import Base Scheduler Controller Manager.
From Verif.Spec Require Import SchedulerSpec ManagerSpec SystemSpec StatsSpec.
From Verif.Proofs Require Import ManagerProofs ManagerInv ManagerOps WorldSteps.
Import ListNotations.

Section Stats.
Context {W : Type} (H : hooks W).
Notation mgr := (mgr W).

Definition own (m : mgr) (p : ptr) : list (ptr * callback) := if runningb m p then [(p, CbUpdate)] else [].

(** one update: clock, callback, clock *)
Lemma update_entry_world (m : mgr) e :
  let m' := update_entry H m e in
  exists t0 w0 t1 w1, h_now H (world m) = (t0, w0) /\
    h_now H (if runningb m (e_ptr e) then h_cb H (e_ptr e) CbUpdate w0 else w0) = (t1, w1) /\
    world m' = w1 /\ acts H (own m (e_ptr e)) (world m) w1 /\
    one_more (t1 - t0) t1 (co_stats (heap m (e_ptr e))) (co_stats (heap m' (e_ptr e))).
Proof.
  unfold update_entry, now. destruct (h_now H (world m)) as [t0 w0] eqn:E0.
  set (m1 := set_world w0 m).
  assert (WU : world (update_ctrl H (e_ptr e) m1) = if runningb m (e_ptr e) then h_cb H (e_ptr e) CbUpdate w0 else w0).
  { unfold update_ctrl, updateRequest, runningb. fold (state_of m1 (e_ptr e)). change (co_state (heap m (e_ptr e))) with (state_of m1 (e_ptr e)).
    destruct (state_of m1 (e_ptr e)); reflexivity. }
  pose proof (update_ctrl_spec H (e_ptr e) m1) as (_ & _ & _ & _ & _ & _ & HH).
  set (m2 := update_ctrl H (e_ptr e) m1) in *. rewrite WU.
  destruct (h_now H (if runningb m (e_ptr e) then h_cb H (e_ptr e) CbUpdate w0 else w0)) as [t1 w1] eqn:E1.
  cbv zeta. exists t0, w0, t1, w1. split; [reflexivity|]. split; [exact E1|]. split; [reflexivity|]. split.
  - apply acts_now. rewrite E0. cbn [snd]. unfold own. destruct (runningb m (e_ptr e)).
    + apply acts_cb. apply acts_now. rewrite E1. apply acts_nil.
    + apply acts_now. rewrite E1. apply acts_nil.
  - cbn [heap set_heap set_world]. unfold upd_heap. rewrite Nat.eqb_refl. cbn [co_stats set_co_stats]. rewrite (HH (e_ptr e)).
    change (heap m1 (e_ptr e)) with (heap m (e_ptr e)). unfold one_more, acc_stats, overrun. cbn [st_samples st_overruns st_last_overrun].
    split; [reflexivity|]. unfold overrun_limit. split; intros D; destruct (Z.ltb_spec 1000000 (t1 - t0)); try lia; auto.
Qed.

Definition owns (m : mgr) (es : list entry) : list (ptr * callback) := flat_map (fun e => own m (e_ptr e)) es.
Lemma owns_state m m' es : (forall q, state_of m' q = state_of m q) -> owns m' es = owns m es.
Proof. intros S. unfold owns, own. apply flat_map_ext. intros e. unfold runningb. fold (state_of m' (e_ptr e)) (state_of m (e_ptr e)). now rewrite S. Qed.

Lemma fold_update_acts es : forall m, acts H (owns m es) (world m) (world (fold_left (update_entry H) es m)).
Proof.
  induction es as [|e es IH]; intros m; [apply acts_nil|]. cbn [fold_left].
  destruct (update_entry_world m e) as (t0 & w0 & t1 & w1 & _ & _ & WW & A & _).
  destruct (update_entry_spec H m e) as (_ & _ & _ & _ & _ & _ & S & _).
  change (owns m (e :: es)) with (own m (e_ptr e) ++ owns m es). rewrite <- (owns_state m (update_entry H m e) es S).
  eapply acts_trans; [rewrite <- WW in A; exact A|apply IH].
Qed.

Lemma fold_update_stats es m : NoDup (map e_ptr es) -> forall before e after, es = before ++ e :: after ->
  exists w t0 w0 t1 w1, acts H (owns m before) (world m) w /\ h_now H w = (t0, w0) /\
    h_now H (if runningb m (e_ptr e) then h_cb H (e_ptr e) CbUpdate w0 else w0) = (t1, w1) /\
    one_more (t1 - t0) t1 (co_stats (heap m (e_ptr e))) (co_stats (heap (fold_left (update_entry H) es m) (e_ptr e))).
Proof.
  intros ND before e after ->. rewrite fold_left_app. cbn [fold_left]. rewrite map_app in ND. cbn [map] in ND.
  set (m1 := fold_left (update_entry H) before m).
  destruct (fold_update H before m) as (_ & _ & _ & _ & _ & _ & S1 & O1 & _). fold m1 in S1, O1.
  destruct (update_entry_world m1 e) as (t0 & w0 & t1 & w1 & E0 & E1 & _ & _ & OM).
  destruct (fold_update H after (update_entry H m1 e)) as (_ & _ & _ & _ & _ & _ & _ & O2 & _).
  pose proof (NoDup_remove_2 _ _ _ ND) as NI. rewrite in_app_iff in NI.
  assert (RB : runningb m1 (e_ptr e) = runningb m (e_ptr e)).
  { unfold runningb. fold (state_of m1 (e_ptr e)) (state_of m (e_ptr e)). now rewrite S1. }
  rewrite RB in E1. exists (world m1), t0, w0, t1, w1. split; [apply fold_update_acts|]. split; [exact E0|]. split; [exact E1|].
  rewrite O2 by tauto. rewrite <- (O1 (e_ptr e)) by tauto. exact OM.
Qed.

(** the statistics of a whole cycle *)
Lemma cycle_stats l1 l2 m m' : Inv m -> (0 < h_per_mech H)%Z -> (0 < h_per_js H)%Z -> update H l1 l2 m = Ok m' ->
  (forall q, ~ In q (map e_ptr (loaded m)) -> co_stats (heap m' q) = co_stats (heap m q)) /\
  (forall e, In e (loaded m) -> exists cbs rest w t0 w0 t1 w1,
     trace m' = trace m ++ [EvPropagate; EvZero] ++ cb_events (cbs ++ own m (e_ptr e)) ++ rest /\
     acts H cbs (h_zero H (h_propagate H (snd (h_now H (world m))))) w /\ h_now H w = (t0, w0) /\
     h_now H (if runningb m (e_ptr e) then h_cb H (e_ptr e) CbUpdate w0 else w0) = (t1, w1) /\
     one_more (t1 - t0) t1 (co_stats (heap m (e_ptr e))) (co_stats (heap m' (e_ptr e)))) /\
  exists r, trace m' = trace m ++ r /\ forall ss, In (EvPubMech ss) r ->
     map cs_name ss = map e_name (loaded m) /\
     forall j e c, nth_error (loaded m) j = Some e -> nth_error ss j = Some c ->
       cs_name c = e_name e /\
       cs_samples c = st_samples (co_stats (heap m' (e_ptr e))) /\
       cs_overruns c = st_overruns (co_stats (heap m' (e_ptr e))) /\
       cs_last_overrun c = st_last_overrun (co_stats (heap m' (e_ptr e))).
Proof.
  intros I Hp1 Hp2. unfold update.
  set (m0 := rt_use (cur m) m).
  destruct (rt_pre_spec H m0) as (F1 & T1 & H1 & S1 & P1 & _ & _).
  assert (W1 : acts H [] (h_zero H (h_propagate H (snd (h_now H (world m))))) (world (rt_pre H m0))).
  { unfold rt_pre, now, m0. cbn [world rt_use set_used]. destruct (h_now H (world m)) as [t w]. cbn [snd].
    cbn [world on_world set_world log set_trace].
    destruct (h_now H (h_zero H (h_propagate H w))) as [t2 w2] eqn:E2. cbn [world set_world]. apply acts_now. rewrite E2. apply acts_nil. }
  set (m1 := rt_pre H m0) in *.
  assert (V0 : valid_sched m0) by (apply (inv_valid m I)).
  assert (V1 : valid_sched m1) by (eapply frame_valid; eauto).
  assert (U1 : used m1 = Some (cur m1)) by (eapply frame_used; [exact F1|reflexivity]).
  assert (In1 : inited m1).
  { eapply inited_frame; [exact F1|]. intros e He. apply (inv_state m I). now apply order_in. }
  destruct (rt_restart_spec H m1 V1 U1 In1) as (m2 & E2 & F2 & T2 & S2 & _ & _ & H2 & P2).
  destruct (ran_restart H _ _ E2) as (rcbs & RT & RA).
  rewrite E2. cbn [bind].
  assert (V2 : valid_sched m2) by (eapply frame_valid; eauto).
  assert (U2 : used m2 = Some (cur m2)) by (eapply frame_used; eauto).
  assert (F02 : frame m0 m2) by (eapply frame_trans; eauto).
  assert (OR : order m2 = order m) by (rewrite (frame_order m0 m2 F02); reflexivity).
  destruct (rt_update_all_spec H m2 V2 U2) as (m3 & E3 & F3 & T3 & S3 & P3 & _ & _ & St3 & Sm3).
  assert (E3' : rt_update_all H m2 = Ok (fold_left (update_entry H) (order m) m2)).
  { unfold rt_update_all, rt_list. rewrite U2. cbn [bind]. fold (loaded m2). rewrite <- OR.
    rewrite (for_each_order _ (update_entry H) (fun _ => True)) with (m := m2); auto.
    - intros mm i e _ _ Hn. unfold rt_update_one. rewrite Hn. simpl. unfold update_entry.
      destruct (now_spec H mm) as (t0 & w0 & ->).
      destruct (now_spec H (update_ctrl H (e_ptr e) (set_world w0 mm))) as (t1 & w1 & ->). reflexivity.
    - intros mm e _ _. split; auto. apply update_entry_spec. }
  assert (M3 : m3 = fold_left (update_entry H) (order m) m2) by congruence.
  rewrite E3. cbn [bind].
  destruct (rt_post_spec H m3) as (F4 & T4 & H4 & S4 & P4 & _ & _).
  set (m4 := rt_post H m3) in *.
  assert (F04 : frame m0 m4).
  { eapply frame_trans; [exact F02|]. eapply frame_trans; eauto. }
  assert (U4 : used m4 = Some (cur m4)) by (eapply frame_used; [exact F04|reflexivity]).
  assert (L4 : loaded m4 = loaded m).
  { unfold loaded. destruct F04 as (A&_&B&_). rewrite A, B. reflexivity. }
  assert (Sm : mstats m4 = mstats m).
  { rewrite S4, S3, S2, S1. reflexivity. }
  destruct (publish_mech_spec H l1 m4 Hp1 U4) as (m5 & pub1 & E5 & F5 & H5 & P5 & T5 & Hpub & N5 & C5).
  { rewrite L4, Sm. rewrite <- (map_length cs_name), (inv_stats m I), map_length. lia. }
  rewrite E5. cbn [bind].
  destruct (publish_js_spec H l2 m5 Hp2) as (m6 & pub2 & E6 & F6 & H6 & P6 & S6 & T6 & Hpub2).
  rewrite E6. cbn [bind]. intros E. injection E as <-.
  assert (F06 : frame m0 m6).
  { eapply frame_trans; [exact F04|]. eapply frame_trans; eauto. }
  pose proof F06 as (A1&A2&A3&A4&A5&A6&A7&A8&A9&A10).
  assert (St2 : forall q, state_of m2 q = state_of m q).
  { intros q. unfold state_of. rewrite H2, H1. reflexivity. }
  assert (St6 : forall q, state_of m6 q = state_of m q).
  { intros q. unfold state_of. rewrite H6, H5, H4. fold (state_of m3 q). rewrite St3. apply St2. }
  assert (Hreq : forall p, In p (start_req m6 ++ stop_req m6) -> state_of m6 p <> CONSTRUCTED).
  { rewrite A6, A7. intros p Hp. rewrite St6. apply (inv_reqs m I) in Hp.
    apply in_map_iff in Hp. destruct Hp as (e & <- & He). now apply (inv_state m I). }
  pose proof (rt_switch_spec H m6 Hreq) as (B1&B2&B3&B4&B5&B6&B7&B8&B9&B10&B11&B12&B13).
  assert (SS : forall q, co_stats (heap (rt_switch H m6) q) = co_stats (heap m3 q)).
  { intros q. rewrite B12, H6, H5, H4. reflexivity. }
  assert (SW : exists r, trace (rt_switch H m6) = trace m6 ++ r /\ forall ss, ~ In (EvPubMech ss) r).
  { destruct (please m6) eqn:PL.
    - destruct (B10 eq_refl) as (_ & _ & T & _). eexists. split; [exact T|]. intros ss IN. rewrite !in_app_iff, !in_map_iff in IN.
      destruct IN as [(x & X & _)|[(x & X & _)|[X|[]]]]; discriminate.
    - rewrite (B9 eq_refl). exists []. rewrite app_nil_r. split; auto. }
  destruct SW as (sw & TS & NSW).
  pose proof (exec_order_perm m I) as PERM. rewrite exec_order_order in PERM.
  assert (ND : NoDup (map e_ptr (order m))) by (eapply Permutation_NoDup; [apply Permutation_sym, PERM|apply (inv_ptrs m I)]).
  assert (RB2 : forall q, runningb m2 q = runningb m q).
  { intros q. unfold runningb. fold (state_of m2 q) (state_of m q). now rewrite St2. }
  split; [|split].
  - intros q NI. rewrite SS, M3. destruct (fold_update H (order m) m2) as (_ & _ & _ & _ & _ & _ & _ & O & _).
    rewrite O by (intros IN; apply NI; eapply Permutation_in; eauto). rewrite H2, H1. reflexivity.
  - intros e He. assert (INO : In e (order m)).
    { assert (X : In (e_ptr e) (map e_ptr (order m))) by (eapply Permutation_in; [apply Permutation_sym, PERM|apply in_map, He]).
      apply in_map_iff in X. destruct X as (e2 & EQ & I2). assert (e2 = e); [|congruence].
      pose proof (order_in m e2 I2) as L2. pose proof (inv_ptrs m I) as NP. revert L2 He EQ NP. clear.
      induction (loaded m) as [|x l IH]; intros L2 He EQ NP; [destruct He|]. cbn [map] in NP. inversion NP as [|? ? N1 N2]; subst.
      destruct L2 as [L2|L2], He as [He|He]; try congruence; [| |auto]; exfalso; apply N1.
      - subst x. rewrite EQ. now apply in_map.
      - subst x. rewrite <- EQ. now apply in_map. }
    destruct (in_split _ _ INO) as (before & after & EO).
    destruct (fold_update_stats (order m) m2 ND before e after EO) as (w & t0 & w0 & t1 & w1 & AW & N0 & N1 & OM).
    rewrite RB2 in N1. rewrite <- M3 in OM. rewrite H2, H1 in OM.
    rewrite (owns_state m m2 before St2) in AW.
    assert (T3' : exists r3, trace m3 = trace m2 ++ cb_events (owns m before ++ own m (e_ptr e)) ++ r3).
    { rewrite T3. rewrite exec_order_order, OR, EO, map_app, flat_map_app. cbn [map flat_map].
      eexists. f_equal. rewrite <- (owns_state m m2 before St2). unfold cb_events. rewrite map_app, <- app_assoc. f_equal.
      - unfold owns. clear. induction before as [|x b IH]; [reflexivity|]. cbn [map flat_map]. rewrite map_app, <- IH.
        unfold own. destruct (runningb m2 (e_ptr x)); reflexivity.
      - f_equal. unfold own. rewrite <- RB2. destruct (runningb m2 (e_ptr e)); reflexivity. }
    destruct T3' as (r3 & T3').
    exists (rcbs ++ owns m before), (r3 ++ [EvEnforce; EvEffort] ++ pub1 ++ pub2 ++ sw), w, t0, w0, t1, w1.
    split; [|split; [|split; [exact N0|split; [exact N1|]]]].
    + rewrite TS, T6, T5, T4, T3', RT, T1. unfold cb_events. rewrite !map_app, <- !app_assoc. reflexivity.
    + apply (acts_trans H [] _ _ _ _ W1). eapply acts_trans; [exact RA|exact AW].
    + rewrite SS. exact OM.
  - exists ([EvPropagate; EvZero] ++ cb_events rcbs ++ flat_map (fun p => if runningb m2 p then [EvCb p CbUpdate] else []) (exec_order m2) ++ [EvEnforce; EvEffort] ++ pub1 ++ pub2 ++ sw).
    split.
    + rewrite TS, T6, T5, T4, T3, RT, T1. rewrite <- !app_assoc. reflexivity.
    + intros ss IN. rewrite !in_app_iff in IN.
      destruct IN as [[X|[X|[]]]|[X|[X|[[X|[X|[]]]|[X|[X|X]]]]]]; try discriminate.
      * unfold cb_events in X. apply in_map_iff in X. destruct X as (? & X & _). discriminate.
      * apply in_flat_map in X. destruct X as (p & _ & X). destruct (runningb m2 p); [destruct X as [X|[]]; discriminate|destruct X].
      * destruct Hpub as [->| ->]; [destruct X|]. destruct X as [X|[]]. injection X as <-.
        assert (Nm : map cs_name (mstats m5) = map e_name (loaded m)) by (rewrite N5, Sm; apply (inv_stats m I)).
        split; [exact Nm|]. intros j e c Hj Hc.
        destruct (C5 ltac:(discriminate) j e c) as (R & Sa & So & Sl); [now rewrite L4|exact Hc|].
        assert (E : nth_error (map cs_name (mstats m5)) j = nth_error (map e_name (loaded m)) j) by now rewrite Nm.
        rewrite !nth_error_map, Hj, Hc in E. cbn in E. rewrite SS. rewrite H4 in Sa, So, Sl. split; [congruence|]. auto.
      * destruct Hpub2 as [->| ->]; [destruct X|]. destruct X as [X|[]]. discriminate.
      * elim (NSW ss X).
Qed.

(** services leave the statistics of loaded controllers alone and give a new one empty statistics *)
Lemma service_stats m o a m' : Inv m -> (forall l1 l2, o <> OpUpdate l1 l2) -> step H m o (Ok (a, m')) ->
  (forall e, In e (loaded m) -> co_stats (heap m' (e_ptr e)) = co_stats (heap m (e_ptr e))) /\
  (forall e, In e (loaded m') -> In e (loaded m) \/ (e = mkEntry (e_name e) (next m) /\ co_stats (heap m' (e_ptr e)) = new_stats)) /\
  exists r, trace m' = trace m ++ r /\ forall ss, ~ In (EvPubMech ss) r.
Proof.
  intros INV NU S. remember (Ok (a, m')) as r eqn:E.
  assert (SAME : forall mm : mgr, (forall e, In e (loaded m) -> heap mm (e_ptr e) = heap m (e_ptr e)) -> (forall e, In e (loaded mm) -> In e (loaded m)) ->
    (exists r, trace mm = trace m ++ r /\ forall ss, ~ In (EvPubMech ss) r) ->
    (forall e, In e (loaded m) -> co_stats (heap mm (e_ptr e)) = co_stats (heap m (e_ptr e))) /\
    (forall e, In e (loaded mm) -> In e (loaded m) \/ (e = mkEntry (e_name e) (next m) /\ co_stats (heap mm (e_ptr e)) = new_stats)) /\
    exists r, trace mm = trace m ++ r /\ forall ss, ~ In (EvPubMech ss) r).
  { intros mm HH LL TT. split; [|split; auto]. intros e IN. rewrite HH; auto. }
  assert (NIL : forall mm : mgr, trace mm = trace m -> exists r, trace mm = trace m ++ r /\ forall ss, ~ In (EvPubMech ss) r).
  { intros mm TT. exists []. rewrite app_nil_r. auto. }
  destruct S as [m env name PL|m name PL|m start stop k PL|m l1 l2|m f|m PL HL].
  - destruct (load_spec H env name m INV PL) as (a1 & m1 & E1 & _ & _ & C). rewrite E1 in E. injection E as -> ->.
    assert (REJ : same_controllers m m' /\ (trace m' = trace m \/ exists b, trace m' = trace m ++ [EvCb (next m) (CbInit b)]) ->
      (forall e, In e (loaded m) -> co_stats (heap m' (e_ptr e)) = co_stats (heap m (e_ptr e))) /\
      (forall e, In e (loaded m') -> In e (loaded m) \/ (e = mkEntry (e_name e) (next m) /\ co_stats (heap m' (e_ptr e)) = new_stats)) /\
      exists r, trace m' = trace m ++ r /\ forall ss, ~ In (EvPubMech ss) r).
    { intros ((L & _ & HH & _) & T). apply SAME; [auto|rewrite L; auto|]. destruct T as [T|(b & T)]; [auto|].
      eexists. split; [exact T|]. intros ss [X|[]]; discriminate. }
    destruct a as [[]|]; [|auto|auto]. destruct C as (_ & L & HH & _ & T & _ & ty & pr & d & _ & _ & HN).
    split; [intros e IN; rewrite HH; auto|]. split.
    + intros e IN. rewrite L in IN. apply in_app_or in IN. destruct IN as [IN|[IN|[]]]; [auto|]. right. subst e.
      split; [reflexivity|]. cbn [e_ptr fresh_entry]. rewrite HN. reflexivity.
    + eexists. split; [exact T|]. intros ss [X|[]]; discriminate.
  - destruct (unload_spec name m INV PL) as (b & m1 & E1 & _ & _ & T & _ & HH & _ & C). rewrite E1 in E. injection E as <- ->.
    apply SAME; [intros; now rewrite HH| |auto]. destruct b; [rewrite C; intros e IN; unfold others in IN; apply filter_In in IN; tauto|].
    destruct C as (-> & _). auto.
  - destruct (switch_request_spec start stop k m INV PL) as [(_ & _ & m1 & E1 & _ & (L & _) & _ & _ & _ & HH & T)|(_ & m1 & E1 & _ & (L & _) & _ & _ & _ & HH & T & _)];
      rewrite E1 in E; injection E as <- ->; (apply SAME; [intros; now rewrite HH|rewrite L; auto|auto]).
  - elim (NU l1 l2). reflexivity.
  - injection E as <- <-. apply SAME; auto.
  - injection E as <- <-. apply SAME; auto. exists [EvNewLoader]. split; [reflexivity|]. intros ss [X|[]]; discriminate.
Qed.
End Stats.
