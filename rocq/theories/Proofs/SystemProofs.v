(** Proofs about the manager wired to a robot. *)
From Coq Require Import List String Arith Bool ZArith Lia.
From Verif.Model Require Import Base Num Joint Hardware Transmission Scheduler Controller Manager Robot System.
From Verif.Spec Require Import RobotSpec SystemSpec.
From Verif.Proofs Require Import WorldSteps.
Import ListNotations.

Lemma over_joints_spec {T} (f : jointstate T -> res (jointstate T)) : forall ids (m m' : mem T), NoDup ids ->
  over_joints f ids m = Ok m' ->
  m_act m' = m_act m /\ (forall k, In k ids -> f (m_js m k) = Ok (m_js m' k)) /\ (forall k, ~ In k ids -> m_js m' k = m_js m k).
Proof.
  induction ids as [|i ids IH]; intros m m' ND E; cbn [over_joints] in E.
  - injection E as <-. split; [reflexivity|]. split; [intros k []|reflexivity].
  - destruct (f (m_js m i)) as [j| | |] eqn:F; cbn [bind] in E; try discriminate. apply NoDup_cons_iff in ND. destruct ND as [NI ND].
    destruct (IH _ _ ND E) as (A & B & C). split; [exact A|]. split.
    + intros k [<-|I].
      * rewrite (C i NI). cbn [js_upd m_js]. unfold Transmission.upd. rewrite Nat.eqb_refl. exact F.
      * specialize (B k I). cbn [js_upd m_js] in B. unfold Transmission.upd in B. destruct (Nat.eqb_spec k i) as [EQ|]; [subst; contradiction|exact B].
    + intros k NK. rewrite (C k); [|intros I; apply NK; right; exact I]. cbn [js_upd m_js]. unfold Transmission.upd.
      destruct (Nat.eqb_spec k i) as [->|]; [exfalso; apply NK; left; reflexivity|reflexivity].
Qed.

Section Sys.
Context {Tr T X : Type} {N : Num T} (K : tclass Tr T) (dbg : bool) (s : rstate) (tick : X -> Z * X)
        (cb : ptr -> callback -> X -> mem T -> X * mem T) (pm pj : Z).
Let H : hooks (sysw Tr T X) := sys_hooks K dbg s tick cb pm pj.

Lemma now_plant (w : sysw Tr T X) : sy_plant (snd (h_now H w)) = sy_plant w /\ sy_out (snd (h_now H w)) = sy_out w.
Proof. unfold H. cbn [h_now sys_hooks]. destruct (tick (sy_user w)). split; reflexivity. Qed.

(** callbacks and clock: the log is untouched, only the memory changes *)
Lemma acts_out cbs w w' : acts H cbs w w' -> sy_out w' = sy_out w.
Proof.
  induction 1 as [|cbs w w' A IH|p k cbs w w' A IH]; auto.
  - rewrite IH. apply now_plant.
  - rewrite IH. unfold H. cbn [h_cb sys_hooks]. unfold sys_cb. destruct (sy_plant w); auto. destruct (cb p k _ _); auto.
Qed.
Lemma acts_plant cbs w w' : acts H cbs w w' -> forall p, sy_plant w = Ok p ->
  exists m, sy_plant w' = Ok (set_pl_mem m p) /\ written cb cbs (pl_mem p) m.
Proof.
  induction 1 as [w|cbs w w' A IH|c k cbs w w' A IH]; intros p E.
  - exists (pl_mem p). split; [rewrite E; destruct p; reflexivity|constructor].
  - apply IH. rewrite (proj1 (now_plant w)). exact E.
  - unfold H in IH. cbn [h_cb sys_hooks] in IH. unfold sys_cb in IH. rewrite E in IH.
    destruct (cb c k (sy_user w) (pl_mem p)) as [x m] eqn:C. cbn [sy_plant] in IH.
    destruct (IH _ eq_refl) as (m' & Q1 & Q2). exists m'. split; [rewrite Q1; reflexivity|].
    apply (wr_cons cb (c, k) (sy_user w)). cbn [fst snd]. rewrite C. exact Q2.
Qed.
Lemma acts_crash cbs w w' : acts H cbs w w' -> (forall p, sy_plant w <> Ok p) -> sy_plant w' = sy_plant w.
Proof.
  induction 1 as [w|cbs w w' A IH|c k cbs w w' A IH]; intros E; auto.
  - rewrite IH; [apply now_plant|]. rewrite (proj1 (now_plant w)). exact E.
  - assert (Q : h_cb H c k w = w). { unfold H. cbn [h_cb sys_hooks]. unfold sys_cb. destruct (sy_plant w) eqn:P; auto. exfalso. eapply E; eauto. }
    rewrite Q in *. auto.
Qed.
Lemma acts_nil_plant w w' : acts H [] w w' -> sy_plant w' = sy_plant w /\ sy_out w' = sy_out w.
Proof.
  intros A. split; [|eapply acts_out; eauto]. remember [] as l. induction A as [w|cbs w w' A IH|c k cbs w w' A IH]; auto; [|discriminate].
  rewrite IH by auto. apply now_plant.
Qed.

(** a piece of C++ on the plant: crash, or result *)
Lemma on_plant_ok f (w : sysw Tr T X) p' : sy_plant (on_plant f w) = Ok p' ->
  exists p o, sy_plant w = Ok p /\ f p = Ok (p', o) /\ sy_out (on_plant f w) = sy_out w ++ o.
Proof.
  unfold on_plant. destruct (sy_plant w) as [p| | |] eqn:E; try (rewrite E; discriminate).
  destruct (f p) as [[q o]| | |] eqn:F; cbn [sy_plant]; try discriminate. intros Q. injection Q as <-. exists p, o. auto.
Qed.

Lemma written_same (Q : mem T -> mem T -> Prop) : (forall m, Q m m) -> (forall a b c, Q a b -> Q b c -> Q a c) ->
  forall cbs m m', (forall c x m, In c cbs -> Q m (snd (cb (fst c) (snd c) x m))) -> written cb cbs m m' -> Q m m'.
Proof.
  intros R1 TR cbs m m' HQ A. induction A as [m|c x cbs m m' A IH]; [apply R1|].
  eapply TR; [apply (HQ c x m); left; auto|]. apply IH. intros c' x' m1 I. apply HQ. right. exact I.
Qed.

Lemma written_joints cbs m m' : keeps_joints cb -> written cb cbs m m' -> forall k, js_joint (m_js m' k) = js_joint (m_js m k).
Proof.
  intros KJ A k. apply (written_same (fun a b => js_joint (m_js b k) = js_joint (m_js a k))) with (cbs := cbs); auto.
  - intros a b c E1 E2. congruence.
Qed.
Lemma written_command cbs m m' k : Forall (leaves_command cb k) cbs -> written cb cbs m m' -> commanded_effort (m_js m' k) = commanded_effort (m_js m k).
Proof.
  intros L A. apply (written_same (fun a b => commanded_effort (m_js b k) = commanded_effort (m_js a k))) with (cbs := cbs); auto.
  - intros a b c E1 E2. congruence.
  - intros c x m0 I. rewrite Forall_forall in L. apply (L c I).
Qed.

Lemma zero_spec m m' : zeroCommands s m = Ok m' ->
  m_act m' = m_act m /\ forall k, k < rs_size s -> m_js m' k = set_commanded_effort nzero (m_js m k).
Proof.
  intros E. destruct (over_joints_spec _ _ _ _ (seq_NoDup _ _) E) as (A & B & _). split; auto. intros k L.
  specialize (B k). rewrite in_seq in B. specialize (B ltac:(lia)). injection B as B. auto.
Qed.
Lemma enforce_spec m m' : enforceSafety s m = Ok m' ->
  m_act m' = m_act m /\ (forall k, k < rs_size s -> enforceLimits (m_js m k) = Ok (m_js m' k)) /\ (forall k, rs_size s <= k -> m_js m' k = m_js m k).
Proof.
  intros E. destruct (over_joints_spec _ _ _ _ (seq_NoDup _ _) E) as (A & B & C). split; auto. split.
  - intros k L. apply B. apply in_seq. lia.
  - intros k L. apply C. rewrite in_seq. lia.
Qed.

(** Publications change only statistics and messages. *)
Lemma fill_stats_mem ids t : forall j (m : mem T) out m' out', fill_joint_stats dbg t ids j m out = Ok (m', out') ->
  m_act m' = m_act m /\ forall k, m_js m' k = set_joint_statistics (joint_statistics (m_js m' k)) (m_js m k).
Proof.
  assert (SELF : forall js : jointstate T, js = set_joint_statistics (joint_statistics js) js) by (intros []; reflexivity).
  induction ids as [|i ids IH]; intros j m out m' out' E; cbn [fill_joint_stats] in E.
  - injection E as <- <-. split; auto.
  - destruct (js_joint (m_js m i)) as [u|]; [|discriminate]. destruct (is_published (uj_type u)).
    + destruct (cassert dbg _) as [[]| | |]; cbn [bind] in E; try discriminate.
      destruct (vset out j _) as [out1| | |]; cbn [bind] in E; try discriminate.
      destruct (IH _ _ _ _ _ E) as (A & B). split; [exact A|]. intros k. rewrite (B k) at 1. cbn [js_upd m_js]. unfold Transmission.upd.
      destruct (Nat.eqb_spec k i) as [->|]; [|reflexivity]. destruct (m_js m i). reflexivity.
    + eapply IH; eauto.
Qed.

Lemma attempt_out l (pub : Z -> sysw Tr T X -> sysw Tr T X) last per last' w w' p' :
  attempt H l pub last per last' w w' -> sy_plant w' = Ok p' ->
  (sy_plant w = Ok p' /\ sy_out w' = sy_out w) \/
  exists t w1, sy_plant w1 = sy_plant w /\ sy_out w1 = sy_out w /\ sy_plant (pub t w1) = Ok p' /\ sy_out w' = sy_out (pub t w1).
Proof.
  intros (t & w1 & E & [(_ & -> & _)|(_ & _ & A)]) P.
  - left. pose proof (now_plant w) as [A B]. rewrite E in A, B. cbn [snd] in A, B. rewrite <- A, <- B. auto.
  - right. exists t, w1. pose proof (now_plant w) as [A1 B1]. rewrite E in A1, B1. cbn [snd] in A1, B1.
    apply acts_nil_plant in A. destruct A as [A2 B2]. rewrite <- A2. auto.
Qed.

Definition frame_stats (m m' : mem T) : Prop :=
  m_act m' = m_act m /\ forall k, m_js m' k = set_joint_statistics (joint_statistics (m_js m' k)) (m_js m k).
Lemma frame_stats_refl m : frame_stats m m.
Proof. split; auto. intros k. destruct (m_js m k). reflexivity. Qed.

(** One cycle that does not crash. *)
Lemma cycle' l1 l2 m m' p' : update H l1 l2 m = Ok m' -> sy_plant (world m') = Ok p' ->
  exists p ts1 m1 m2 cbs mb ms ts2 ma wm wj pm1 pj1 cbs' rest,
    sy_plant (world m) = Ok p /\
    propagateActuatorPositionToJointPosition K s (pl_ts p) (pl_mem p) = Ok (ts1, m1) /\
    zeroCommands s m1 = Ok m2 /\
    written cb cbs m2 mb /\
    enforceSafety s mb = Ok ms /\
    propagateJointEffortToActuatorEffort K s ts1 ms = Ok (ts2, ma) /\
    trace m' = trace m ++ [EvPropagate; EvZero] ++ cb_events cbs ++ [EvEnforce; EvEffort] ++ rest /\
    (let pe := mkPlant ts2 ma (pl_hw p) (pl_js p) (pl_jstats p) (pl_astats p) in
     exists we, sy_plant we = Ok pe /\ sy_out we = sy_out (world m) ++ [OutEffort ms ma] /\
     attempt H l1 (h_pub_mech H) (last_mech m) pm (last_mech m') we wm /\
     attempt H l2 (h_pub_js H) (last_js m) pj (last_js m') wm wj /\
     sy_plant wm = Ok pm1 /\ sy_plant wj = Ok pj1 /\
     acts H cbs' wj (world m') /\ sy_out (world m') = sy_out wj /\
     written cb cbs' (pl_mem pj1) (pl_mem p') /\ no_update cbs').
Proof.
  intros E PO. destruct (update_world' H l1 l2 m m' E) as (cbs & wb & we & wm & wj & cbs' & rest & A1 & A2 & M & J & A3 & TR & NU).
  assert (NC : forall a b c, acts H a b c -> sy_plant c = Ok p' -> exists p, sy_plant b = Ok p).
  { intros a b c A P. destruct (sy_plant b) as [p| | |] eqn:B; eauto; exfalso;
    assert (X1 := acts_crash _ _ _ A); rewrite B in X1; rewrite X1 in P by (intros; discriminate); discriminate. }
  destruct (NC _ _ _ A3 PO) as [pj1 Pj]. destruct (acts_plant _ _ _ A3 _ Pj) as (mm & Q1 & Q2).
  rewrite PO in Q1. injection Q1 as ->. cbn [pl_mem set_pl_mem].
  assert (Pm : exists pm1, sy_plant wm = Ok pm1).
  { destruct (attempt_out _ _ _ _ _ _ _ _ J Pj) as [[B _]|(t & w1 & B & _ & C & _)]; eauto.
    unfold H in C. cbn [h_pub_js sys_hooks] in C. unfold sys_pub_js in C. apply on_plant_ok in C. destruct C as (p & o & C & _). rewrite B in C. eauto. }
  destruct Pm as [pm1 Pm].
  assert (Pe : exists pe, sy_plant we = Ok pe).
  { destruct (attempt_out _ _ _ _ _ _ _ _ M Pm) as [[B _]|(t & w1 & B & _ & C & _)]; eauto.
    unfold H in C. cbn [h_pub_mech sys_hooks] in C. unfold sys_pub_mech in C. apply on_plant_ok in C. destruct C as (p & o & C & _). rewrite B in C. eauto. }
  destruct Pe as [pe Pe].
  pose proof (acts_nil_plant _ _ A2) as [B1 B2]. rewrite Pe in B1. symmetry in B1.
  unfold H in B1, B2. cbn [h_effort h_enforce sys_hooks] in B1, B2. unfold sys_effort in B1, B2.
  destruct (on_plant_ok _ _ _ B1) as (pf & o & F1 & F2 & F3). rewrite F3 in B2. clear F3.
  unfold sys_enforce in F1. destruct (on_plant_ok _ _ _ F1) as (pb & o' & G1 & G2 & G3). unfold sys_enforce in B2. rewrite G3 in B2.
  destruct (enforceSafety s (pl_mem pb)) as [ms| | |] eqn:EN; cbn [bind] in G2; try discriminate. injection G2 as <- <-.
  cbn [pl_mem pl_ts set_pl_mem] in F2.
  destruct (propagateJointEffortToActuatorEffort K s (pl_ts pb) ms) as [[ts2 ma]| | |] eqn:EF; cbn [bind] in F2; try discriminate. injection F2 as <- <-.
  rewrite app_nil_r in B2.
  assert (Z1 : exists pz, sy_plant (h_zero H (h_propagate H (snd (h_now H (world m))))) = Ok pz).
  { destruct (sy_plant (h_zero H (h_propagate H (snd (h_now H (world m)))))) as [pz| | |] eqn:B; eauto; exfalso;
    assert (X1 := acts_crash _ _ _ A1); rewrite B in X1; rewrite X1 in G1 by (intros; discriminate); discriminate. }
  destruct Z1 as [pz Z1]. destruct (acts_plant _ _ _ A1 _ Z1) as (mb & Q3 & Q4). rewrite G1 in Q3. injection Q3 as ->.
  pose proof (acts_out _ _ _ A1) as OB.
  unfold H in Z1, OB. cbn [h_zero h_propagate sys_hooks] in Z1, OB. unfold sys_zero in Z1, OB.
  destruct (on_plant_ok _ _ _ Z1) as (pp & o2 & K1 & K2 & K3). rewrite K3 in OB. clear K3.
  destruct (zeroCommands s (pl_mem pp)) as [m2| | |] eqn:ZE; cbn [bind] in K2; try discriminate. injection K2 as <- <-.
  unfold sys_propagate in K1, OB. destruct (on_plant_ok _ _ _ K1) as (p & o3 & L1 & L2 & L3). rewrite L3 in OB. clear L3.
  fold H in L1, OB. destruct (now_plant (world m)) as [W1 W2]. unfold H in W1, W2, L1, OB. cbn [h_now sys_hooks] in W1, W2, L1, OB.
  rewrite W1 in L1. rewrite W2 in OB. clear W1 W2.
  destruct (propagateActuatorPositionToJointPosition K s (pl_ts p) (pl_mem p)) as [[ts1 m1]| | |] eqn:PR; cbn [bind] in L2; try discriminate.
  injection L2 as <- <-. cbn [pl_mem pl_ts set_pl_ts set_pl_mem pl_hw pl_js pl_jstats pl_astats] in *. rewrite !app_nil_r in OB.
  exists p, ts1, m1, m2, cbs, mb, ms, ts2, ma, wm, wj, pm1, pj1, cbs', rest.
  split; [exact L1|]. split; [exact PR|]. split; [exact ZE|]. split; [exact Q4|]. split; [exact EN|]. split; [exact EF|]. split; [exact TR|].
  cbv zeta. exists we. split; [exact Pe|]. split; [rewrite B2, OB; reflexivity|]. split; [exact M|]. split; [exact J|]. split; [exact Pm|]. split; [exact Pj|].
  split; [exact A3|]. split; [apply (acts_out _ _ _ A3)|split; [exact Q2|exact NU]].
Qed.
Lemma cycle l1 l2 m m' p' : update H l1 l2 m = Ok m' -> sy_plant (world m') = Ok p' ->
  exists p ts1 m1 m2 cbs mb ms ts2 ma wm wj pm1 pj1 cbs' rest,
    sy_plant (world m) = Ok p /\
    propagateActuatorPositionToJointPosition K s (pl_ts p) (pl_mem p) = Ok (ts1, m1) /\
    zeroCommands s m1 = Ok m2 /\
    written cb cbs m2 mb /\
    enforceSafety s mb = Ok ms /\
    propagateJointEffortToActuatorEffort K s ts1 ms = Ok (ts2, ma) /\
    trace m' = trace m ++ [EvPropagate; EvZero] ++ cb_events cbs ++ [EvEnforce; EvEffort] ++ rest /\
    (let pe := mkPlant ts2 ma (pl_hw p) (pl_js p) (pl_jstats p) (pl_astats p) in
     exists we, sy_plant we = Ok pe /\ sy_out we = sy_out (world m) ++ [OutEffort ms ma] /\
     attempt H l1 (h_pub_mech H) (last_mech m) pm (last_mech m') we wm /\
     attempt H l2 (h_pub_js H) (last_js m) pj (last_js m') wm wj /\
     sy_plant wm = Ok pm1 /\ sy_plant wj = Ok pj1 /\
     acts H cbs' wj (world m') /\ sy_out (world m') = sy_out wj /\
     written cb cbs' (pl_mem pj1) (pl_mem p')).
Proof.
  intros E PO. destruct (cycle' l1 l2 m m' p' E PO) as (p & ts1 & m1 & m2 & cbs & mb & ms & ts2 & ma & wm & wj & pm1 & pj1 & cbs' & rest & A1 & A2 & A3 & A4 & A5 & A6 & A7 & we & B1 & B2 & B3 & B4 & B5 & B6 & B7 & B8 & B9 & _).
  exists p, ts1, m1, m2, cbs, mb, ms, ts2, ma, wm, wj, pm1, pj1, cbs', rest. repeat (split; [assumption|]). exists we. repeat (split; [assumption|]). assumption.
Qed.

Lemma mech_case l last last' we wm pe pm1 : attempt H l (h_pub_mech H) last pm last' we wm -> sy_plant we = Ok pe -> sy_plant wm = Ok pm1 ->
  (pm1 = pe /\ sy_out wm = sy_out we /\ last' = last /\ exists x, l && (last + pm <? fst (tick x))%Z = false) \/
  exists t m1 js acts, l = true /\ (last + pm < t)%Z /\ catch_up (catch_up_fuel last t) last pm t = Ok last' /\
    fill_joint_stats dbg t (seq 0 (rs_size s)) 0 (pl_mem pe) (pl_jstats pe) = Ok (m1, js) /\
    fill_actuator_stats m1 (pl_hw pe) 0 (pl_astats pe) = Ok acts /\
    pm1 = mkPlant (pl_ts pe) m1 (pl_hw pe) (pl_js pe) js acts /\
    sy_out wm = sy_out we ++ [OutStats t js acts].
Proof.
  intros (t & w1 & E & D) PE PM. pose proof (now_plant we) as [A B]. rewrite E in A, B. cbn [snd] in A, B.
  destruct D as [(D & -> & ->)|(D & C & A1)].
  - left. rewrite PM, PE in A. injection A as ->. split; [reflexivity|]. split; [exact B|]. split; [reflexivity|].
    exists (sy_user we). unfold H in E. cbn [h_now sys_hooks] in E. destruct (tick (sy_user we)) as [t' x']. injection E as <- _. exact D.
  - right. apply andb_true_iff in D. destruct D as [-> D]. apply Z.ltb_lt in D. apply acts_nil_plant in A1. destruct A1 as [A1 B1]. rewrite PM in A1. symmetry in A1.
    unfold H in A1, B1. cbn [h_pub_mech sys_hooks] in A1, B1. unfold sys_pub_mech in A1, B1.
    destruct (on_plant_ok _ _ _ A1) as (p & o & P1 & F & O). rewrite O, B in B1. clear O. rewrite A, PE in P1. injection P1 as <-.
    destruct (fill_joint_stats dbg t (seq 0 (rs_size s)) 0 (pl_mem pe) (pl_jstats pe)) as [[m1 js]| | |] eqn:FJ; cbn [bind] in F; try discriminate.
    destruct (fill_actuator_stats m1 (pl_hw pe) 0 (pl_astats pe)) as [acts0| | |] eqn:FA; cbn [bind] in F; try discriminate. injection F as <- <-.
    exists t, m1, js, acts0. repeat (split; [solve [auto]|]). exact B1.
Qed.
Lemma js_case l last last' wm wj pm1 pj1 : attempt H l (h_pub_js H) last pj last' wm wj -> sy_plant wm = Ok pm1 -> sy_plant wj = Ok pj1 ->
  (pj1 = pm1 /\ sy_out wj = sy_out wm /\ last' = last /\ exists x, l && (last + pj <? fst (tick x))%Z = false) \/
  exists t msg, l = true /\ (last + pj < t)%Z /\ catch_up (catch_up_fuel last t) last pj t = Ok last' /\
    fill_joint_state dbg (pl_mem pm1) (seq 0 (rs_size s)) 0 (pl_js pm1) = Ok msg /\
    pj1 = mkPlant (pl_ts pm1) (pl_mem pm1) (pl_hw pm1) msg (pl_jstats pm1) (pl_astats pm1) /\
    sy_out wj = sy_out wm ++ [OutJoints t msg].
Proof.
  intros (t & w1 & E & D) PE PM. pose proof (now_plant wm) as [A B]. rewrite E in A, B. cbn [snd] in A, B.
  destruct D as [(D & -> & ->)|(D & C & A1)].
  - left. rewrite PM, PE in A. injection A as ->. split; [reflexivity|]. split; [exact B|]. split; [reflexivity|].
    exists (sy_user wm). unfold H in E. cbn [h_now sys_hooks] in E. destruct (tick (sy_user wm)) as [t' x']. injection E as <- _. exact D.
  - right. apply andb_true_iff in D. destruct D as [-> D]. apply Z.ltb_lt in D. apply acts_nil_plant in A1. destruct A1 as [A1 B1]. rewrite PM in A1. symmetry in A1.
    unfold H in A1, B1. cbn [h_pub_js sys_hooks] in A1, B1. unfold sys_pub_js in A1, B1.
    destruct (on_plant_ok _ _ _ A1) as (p & o & P1 & F & O). rewrite O, B in B1. clear O. rewrite A, PE in P1. injection P1 as <-.
    destruct (fill_joint_state dbg (pl_mem pm1) (seq 0 (rs_size s)) 0 (pl_js pm1)) as [msg| | |] eqn:FJ; cbn [bind] in F; try discriminate. injection F as <- <-.
    exists t, msg. repeat (split; [solve [auto]|]). exact B1.
Qed.

Lemma service_case m o a m' : step H m o (Ok (a, m')) -> outside_op o -> (forall l1 l2, o <> OpUpdate l1 l2) ->
  sy_out (world m') = sy_out (world m) /\ last_js m' = last_js m /\ last_mech m' = last_mech m /\
  (forall p', sy_plant (world m') = Ok p' -> exists p, sy_plant (world m) = Ok p) /\
  (keeps_joints cb -> forall p, sy_plant (world m) = Ok p ->
     exists mm, sy_plant (world m') = Ok (set_pl_mem mm p) /\ forall k, js_joint (m_js mm k) = js_joint (m_js (pl_mem p) k)).
Proof.
  intros S OO NU. pose proof (service_world H m o a m' S) as SW.
  assert (AC : (exists cbs, acts H cbs (world m) (world m')) /\ same_pub m m' ->
    sy_out (world m') = sy_out (world m) /\ last_js m' = last_js m /\ last_mech m' = last_mech m /\
    (forall p', sy_plant (world m') = Ok p' -> exists p, sy_plant (world m) = Ok p) /\
    (keeps_joints cb -> forall p, sy_plant (world m) = Ok p ->
       exists mm, sy_plant (world m') = Ok (set_pl_mem mm p) /\ forall k, js_joint (m_js mm k) = js_joint (m_js (pl_mem p) k))).
  { intros [[cbs A] [B1 B2]]. split; [eapply acts_out; eauto|]. split; [exact B1|]. split; [exact B2|]. split.
    - intros p' P. destruct (sy_plant (world m)) as [p| | |] eqn:Q; eauto; exfalso;
      assert (X1 := acts_crash _ _ _ A); rewrite Q in X1; rewrite X1 in P by (intros; discriminate); discriminate.
    - intros KJ p P. destruct (acts_plant _ _ _ A _ P) as (mm & P' & WR). exists mm. split; [exact P'|]. eapply written_joints; eauto. }
  destruct o as [env name|name|st sp k|l1 l2|f|]; try (apply AC; exact SW).
  - exfalso. eapply NU; reflexivity.
  - clear AC. destruct SW as [-> [B1 B2]]. destruct (OO (world m)) as [O1 O2]. split; [exact O1|]. split; [exact B1|]. split; [exact B2|]. split.
    + intros p' P. destruct (sy_plant (world m)) as [p| | |]; eauto; congruence.
    + intros _ p P. rewrite P in O2. exact O2.
Qed.
End Sys.

(** ** Filling the preallocated messages *)
Lemma vset_at {A} (pre : list A) o old x : vset (pre ++ o :: old) (List.length pre) x = Ok (pre ++ x :: old).
Proof.
  unfold vset. rewrite app_length. cbn [List.length]. destruct (Nat.ltb_spec (List.length pre) (List.length pre + S (List.length old))); [|lia].
  f_equal. induction pre as [|y pre IH]; cbn [app List.length set_nth]; [reflexivity|]. f_equal. apply IH. cbn in *. lia.
Qed.
Lemma cassert_lt {A} dbg (pre : list A) o old : cassert dbg (List.length pre <? List.length (pre ++ o :: old)) = Ok tt.
Proof.
  unfold cassert. rewrite app_length. cbn [List.length]. destruct (Nat.ltb_spec (List.length pre) (List.length pre + S (List.length old))); [|lia].
  now rewrite andb_false_r.
Qed.

Lemma vset_at' {A} (pre : list A) o old x j : j = List.length pre -> vset (pre ++ o :: old) j x = Ok (pre ++ x :: old).
Proof. intros ->. apply vset_at. Qed.
Lemma cassert_at {A} dbg (pre : list A) o old j : j = List.length pre -> cassert dbg (j <? List.length (pre ++ o :: old)) = Ok tt.
Proof. intros ->. apply cassert_lt. Qed.

Section Fill.
Context {T : Type} {N : Num T} (dbg : bool).

Definition published_joints (m : mem T) (ids : list nat) : Prop :=
  forall k, In k ids -> exists u, js_joint (m_js m k) = Some u /\ is_published (uj_type u) = true.
Definition jname (m : mem T) (k : nat) : string := match js_joint (m_js m k) with Some u => uj_name u | None => EmptyString end.

Lemma fill_joint_state_spec (m : mem T) : forall ids n0 p0 v0 e0 n1 p1 v1 e1, published_joints m ids ->
  List.length p0 = List.length n0 -> List.length v0 = List.length n0 -> List.length e0 = List.length n0 ->
  List.length n1 = List.length ids -> List.length p1 = List.length ids -> List.length v1 = List.length ids -> List.length e1 = List.length ids ->
  fill_joint_state dbg m ids (List.length n0) (mkJmsg (n0 ++ n1) (p0 ++ p1) (v0 ++ v1) (e0 ++ e1)) =
  Ok (mkJmsg (n0 ++ map (jname m) ids) (p0 ++ map (fun k => position (m_js m k)) ids)
             (v0 ++ map (fun k => velocity (m_js m k)) ids) (e0 ++ map (fun k => measured_effort (m_js m k)) ids)).
Proof.
  induction ids as [|i ids IH]; intros n0 p0 v0 e0 n1 p1 v1 e1 PJ L1 L2 L3 M0 M1 M2 M3.
  - destruct n1, p1, v1, e1; try discriminate. reflexivity.
  - destruct n1 as [|nx n1], p1 as [|px p1], v1 as [|vx v1], e1 as [|ex e1]; try discriminate. cbn [List.length] in *.
    cbn [fill_joint_state map jm_name jm_position jm_velocity jm_effort]. destruct (PJ i (or_introl eq_refl)) as (u & J & U).
    assert (JN : jname m i = uj_name u) by (unfold jname; rewrite J; reflexivity). rewrite J, U, JN.
    rewrite !cassert_at by congruence. cbn [bind].
    rewrite !vset_at' by congruence. cbn [bind].
    assert (SH : forall A (x : A) a b, a ++ x :: b = (a ++ [x]) ++ b) by (intros; rewrite <- app_assoc; reflexivity).
    rewrite (SH _ _ n0), (SH _ _ p0), (SH _ _ v0), (SH _ _ e0).
    replace (S (List.length n0)) with (List.length (n0 ++ [uj_name u])) by (rewrite app_length; cbn; lia).
    rewrite IH; try (rewrite !app_length; cbn; lia); try lia; [|intros k I; apply PJ; right; exact I].
    rewrite <- !app_assoc. reflexivity.
Qed.

Lemma fill_joint_stats_spec t : forall ids (m : mem T) o0 o1, NoDup ids -> published_joints m ids -> List.length o1 = List.length ids ->
  exists m' o, fill_joint_stats dbg t ids (List.length o0) m (o0 ++ o1) = Ok (m', o0 ++ o) /\
    Forall2 (fun k st => exists u, js_joint (m_js m k) = Some u /\ reports_joint_statistics st t u (m_js m k)) ids o /\
    m_act m' = m_act m /\
    (forall k, In k ids -> m_js m' k = set_joint_statistics (stats_reset (joint_statistics (m_js m k))) (m_js m k)) /\
    (forall k, ~ In k ids -> m_js m' k = m_js m k).
Proof.
  induction ids as [|i ids IH]; intros m o0 o1 ND PJ L.
  - destruct o1; [|discriminate]. exists m, []. split; [reflexivity|]. repeat split; auto. intros k [].
  - destruct o1 as [|ox o1]; [discriminate|]. apply NoDup_cons_iff in ND. destruct ND as [NI ND]. cbn [List.length] in L.
    cbn [fill_joint_stats]. destruct (PJ i (or_introl eq_refl)) as (u & J & U). rewrite J, U, cassert_at by reflexivity. cbn [bind].
    rewrite vset_at' by reflexivity. cbn [bind].
    set (m1 := js_upd i _ m).
    assert (S1 : forall k, k <> i -> m_js m1 k = m_js m k).
    { intros k NK. unfold m1. cbn [js_upd m_js]. unfold Transmission.upd. destruct (Nat.eqb_spec k i); [contradiction|reflexivity]. }
    assert (S2 : m_js m1 i = set_joint_statistics (stats_reset (joint_statistics (m_js m i))) (m_js m i)).
    { unfold m1. cbn [js_upd m_js]. unfold Transmission.upd. rewrite Nat.eqb_refl. reflexivity. }
    assert (S3 : m_act m1 = m_act m) by reflexivity. clearbody m1.
    destruct (IH m1 (o0 ++ [joint_stat t u (m_js m i)]) o1 ND) as (m' & o & E & F & A & B & C).
    { intros k I. rewrite S1 by (intros ->; contradiction). apply PJ. right. exact I. }
    { lia. }
    rewrite app_length in E. cbn [List.length] in E. rewrite Nat.add_1_r, <- !app_assoc in E. cbn [app] in E.
    exists m', (joint_stat t u (m_js m i) :: o). split; [exact E|]. split; [|split; [congruence|split]].
    + constructor; [exists u; split; [exact J|unfold reports_joint_statistics; cbn; repeat split]|].
      clear - F NI S1. revert NI. induction F as [|k st ids o (u & J & RJ) F IH]; intros NI; constructor.
      * exists u. rewrite <- (S1 k) by (intros ->; apply NI; left; reflexivity). auto.
      * apply IH. intros I. apply NI. right. exact I.
    + intros k [<-|I].
      * rewrite (C i NI). exact S2.
      * rewrite (B k I), S1 by (intros ->; contradiction). reflexivity.
    + intros k NK. rewrite C by (intros I; apply NK; right; exact I). apply S1. intros ->. apply NK. left. reflexivity.
Qed.

Lemma fill_actuator_stats_spec (m : mem T) : forall hw o0 o1, List.length o1 = List.length hw ->
  exists o, fill_actuator_stats m hw (List.length o0) (o0 ++ o1) = Ok (o0 ++ o) /\
    Forall2 (fun st na => reports_actuator st (fst na) (m_act m (snd na))) o hw.
Proof.
  induction hw as [|[n a] hw IH]; intros o0 o1 L; destruct o1 as [|ox o1]; try discriminate.
  - exists []. split; [reflexivity|constructor].
  - cbn [fill_actuator_stats]. rewrite vset_at' by reflexivity. cbn [bind]. cbn [List.length] in L.
    destruct (IH (o0 ++ [actuator_stat n (m_act m a)]) o1) as (o & E & F); [lia|].
    rewrite app_length in E. cbn [List.length] in E. rewrite Nat.add_1_r, <- !app_assoc in E. cbn [app] in E.
    exists (actuator_stat n (m_act m a) :: o). split; [exact E|]. constructor; [|exact F].
    unfold reports_actuator. cbn. repeat split.
Qed.
(** ... and undefined behaviour if the registry has grown *)
Lemma fill_actuator_stats_short (m : mem T) : forall hw o0 o1, List.length o1 < List.length hw ->
  fill_actuator_stats m hw (List.length o0) (o0 ++ o1) = UB.
Proof.
  induction hw as [|[n a] hw IH]; intros o0 o1 L; cbn [List.length] in L; [lia|]. cbn [fill_actuator_stats]. destruct o1 as [|ox o1].
  - rewrite app_nil_r. unfold vset. destruct (Nat.ltb_spec (List.length o0) (List.length o0)); [lia|]. reflexivity.
  - rewrite vset_at' by reflexivity. cbn [bind]. cbn [List.length] in L. rewrite <- (IH (o0 ++ [actuator_stat n (m_act m a)]) o1) by lia.
    rewrite app_length. cbn [List.length]. rewrite Nat.add_1_r, <- app_assoc. reflexivity.
Qed.
End Fill.
