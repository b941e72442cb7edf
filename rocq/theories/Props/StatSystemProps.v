(** C85: what the published joint statistics of the running system are about. *)
From Coq Require Import List String Arith Bool ZArith Lia Reals Lra.
From Flocq Require Import IEEE754.BinarySingleNaN.
From Verif.Model Require Import Base Num Joint Hardware Xml Transmission Simple Wrist Belt Gripper Robot Builtin Scheduler Controller Manager System.
From Verif.Spec Require Import LocalSpec JointSpec RobotSpec ManagerSpec SystemSpec StatSystemSpec.
From Verif.Proofs Require Import Locality OverLocal RobotProofs WorldSteps SystemProofs.
From Verif.Props Require Import RobotProps IndependenceProps ManagerProps JointStatsProps SystemProps StartupProps MotorProps.
Import ListNotations.
Local Open Scope string_scope.
Local Open Scope list_scope.

(** *** Reading a log *)
Section Log.
Context {T : Type} {N : Num T} (strict : Prop) (k : nat) (c0 : T).

Definition last_command (out : list (output T)) : T := last (map commanded_effort (cycles k out)) c0.

Lemma cycles_app (a b : list (output T)) : cycles k (a ++ b) = cycles k a ++ cycles k b.
Proof. unfold cycles. rewrite sent_app, map_app. reflexivity. Qed.
Lemma told_last out h c : told strict k c0 out h c -> c = last_command out.
Proof.
  unfold last_command. induction 1 as [|out h c ms ma j H IH _ _|out h c t msg H IH|out h c t js acts st s H IH _ _ _ _].
  - reflexivity.
  - rewrite cycles_app, map_app. cbn [cycles sent flat_map app map fst]. rewrite last_last. reflexivity.
  - rewrite cycles_app. cbn [cycles sent flat_map app map]. rewrite app_nil_r. exact IH.
  - rewrite cycles_app. cbn [cycles sent flat_map app map]. rewrite app_nil_r. exact IH.
Qed.
Lemma told_split b : forall a h c, told strict k c0 (a ++ b) h c -> exists h1 c1, told strict k c0 a h1 c1.
Proof.
  induction b as [|x b IH] using rev_ind; intros a h c H; [rewrite app_nil_r in H; eauto|].
  rewrite app_assoc in H. inversion H as [E|out h0 c1 ms ma j H0 A B E|out h0 c1 t msg H0 E|out h0 c1 t js acts st s H0 A B C D E];
    [destruct (app_cons_not_nil _ _ _ E)|..]; apply app_inj_tail in E; destruct E as [-> _]; eapply IH; eauto.
Qed.
Lemma told_message a b t js acts h c : told strict k c0 (a ++ OutStats t js acts :: b) h c ->
  exists h1 c1 st s, told strict k c0 a h1 c1 /\ sent a <> [] /\ nth_error js k = Some st /\ history_yields _ h1 s /\ shows st s.
Proof.
  intros H. replace (a ++ OutStats t js acts :: b) with ((a ++ [OutStats t js acts]) ++ b) in H by (rewrite <- app_assoc; reflexivity).
  apply told_split in H. destruct H as (h1 & c1 & H).
  inversion H as [E|out h0 c2 ms ma j H0 A B E|out h0 c2 t' msg H0 E|out h0 c2 t' js' acts' st s H0 A B C D E];
    [destruct (app_cons_not_nil _ _ _ E)|..]; apply app_inj_tail in E; destruct E as [-> E]; try discriminate. injection E as -> -> ->. eauto 10.
Qed.

Definition seen_as (strict' : Prop) (e : T * jointstate T) (j : jointstate T) : Prop :=
  same_measures (snd e) j /\ (strict' -> commanded_effort j = fst e).
Lemma before_snoc (l : list (jointstate T)) j : forall c, commands_before c (l ++ [j]) = commands_before c l ++ [(last (map commanded_effort l) c, j)].
Proof.
  induction l as [|x l IH]; intros c; [reflexivity|]. cbn [app commands_before]. rewrite IH.
  cbn [map]. f_equal. f_equal. f_equal. f_equal. destruct l; [reflexivity|]. cbn [map]. generalize (map commanded_effort l) (commanded_effort j0).
  clear. intros l. induction l as [|y l IH]; intros z; [reflexivity|]. apply (IH y).
Qed.

(** the samples of a whole log, in order *)
Definition samples (h : list (stat_op T)) : list (jointstate T) := flat_map (fun o => match o with Sampled j => [j] | Published => [] end) h.
Lemma told_samples out h c : told strict k c0 out h c -> Forall2 (seen_as strict) (commands_before c0 (cycles k out)) (samples h).
Proof.
  induction 1 as [|out h c ms ma j H IH A B|out h c t msg H IH|out h c t js acts st s H IH _ _ _ _]; [constructor|..];
    rewrite cycles_app; cbn [cycles sent flat_map app map fst]; rewrite ?app_nil_r; unfold samples; rewrite ?flat_map_app; cbn [flat_map app]; rewrite ?app_nil_r; auto.
  rewrite before_snoc. apply Forall2_app; [exact IH|]. constructor; [|constructor]. split; [exact A|]. intros ST. cbn [fst]. rewrite (B ST). apply (told_last _ _ _ H).
Qed.
(** between two statistics messages *)
Lemma told_window a t js acts : forall b h c, told strict k c0 (a ++ OutStats t js acts :: b) h c -> unpublished b ->
  exists pre w, h = pre ++ Published :: map Sampled w /\ (exists j, In (Sampled j) pre) /\
    Forall2 (seen_as strict) (commands_before (last_command a) (cycles k b)) w.
Proof.
  induction b as [|x b IH] using rev_ind; intros h c H U.
  - inversion H as [E|out h0 c2 ms ma j H0 A B E|out h0 c2 t' msg H0 E|out h0 c2 t' js' acts' st s H0 A B C D E];
      [destruct (app_cons_not_nil _ _ _ E)|..]; apply app_inj_tail in E; destruct E as [-> E]; try discriminate.
    exists h0, []. split; [reflexivity|]. split; [|constructor]. apply told_samples in H0. unfold cycles in H0.
    destruct (sent a) as [|e l]; [congruence|]. cbn [map commands_before] in H0. inversion H0 as [|x y l1 l2 X Y E1 E2]. symmetry in E2. exists y.
    assert (I : In y (samples h0)) by (rewrite E2; left; auto). unfold samples in I. apply in_flat_map in I. destruct I as ([z|] & I1 & I2); [|destruct I2].
    destruct I2 as [<-|[]]. exact I1.
  - replace (a ++ OutStats t js acts :: b ++ [x]) with ((a ++ OutStats t js acts :: b) ++ [x]) in H by (rewrite <- app_assoc; reflexivity).
    assert (UB : unpublished b) by (intros o I; apply U; apply in_or_app; auto).
    assert (UX := U x ltac:(apply in_or_app; right; left; reflexivity)).
    inversion H as [E|out h0 c2 ms ma j H0 A B E|out h0 c2 t' msg H0 E|out h0 c2 t' js' acts' st s H0 A B C D E];
      [destruct (app_cons_not_nil _ _ _ E)|..]; apply app_inj_tail in E; destruct E as [-> <-]; try discriminate UX.
    + destruct (IH _ _ H0 UB) as (pre & w & -> & IN & F). exists pre, (w ++ [j]). rewrite map_app, <- app_assoc. split; [reflexivity|]. split; [exact IN|].
      rewrite cycles_app. cbn [cycles sent flat_map app map fst]. rewrite before_snoc. apply Forall2_app; [exact F|]. constructor; [|constructor]. split; [exact A|].
      cbn [fst]. intros ST. rewrite (B ST). rewrite (told_last _ _ _ H0). unfold last_command. rewrite cycles_app. change (cycles k (OutStats t js acts :: b)) with (cycles k b). rewrite map_app.
      destruct (map commanded_effort (cycles k b)) as [|z l] eqn:L; [rewrite app_nil_r; reflexivity|].
      assert (LA : forall (u v : list T) d d', v <> [] -> last (u ++ v) d = last v d').
      { clear. intros u v d d' NE. destruct (exists_last NE) as (v' & y & ->). rewrite app_assoc, !last_last. reflexivity. }
      apply LA. discriminate.
    + destruct (IH _ _ H0 UB) as (pre & w & -> & IN & F). exists pre, w. split; [reflexivity|]. split; [exact IN|].
      rewrite cycles_app. cbn [cycles sent flat_map app map]. rewrite app_nil_r. exact F.
Qed.
Lemma told_unpublished : forall b h c, told strict k c0 b h c -> unpublished b -> h = map Sampled (samples h).
Proof.
  induction 1 as [|out h c ms ma j H IH A B|out h c t msg H IH|out h c t js acts st s H IH _ _ _ _]; intros U; [reflexivity|..].
  - unfold samples. rewrite flat_map_app, map_app. cbn [flat_map app map]. f_equal. apply IH. intros o I. apply U. apply in_or_app. auto.
  - apply IH. intros o I. apply U. apply in_or_app. auto.
  - specialize (U (OutStats t js acts) ltac:(apply in_or_app; right; left; reflexivity)). discriminate.
Qed.
End Log.

Section Whole.
Context {T X : Type} {N : Num T} {G : Trig T}.
Variables (dbg : bool) (P : parsers T) (L : loader (transmission T)).
Hypothesis HL : forall c t, ld_create L c = Some t -> is_new t.
Notation K := (builtin dbg P).
Variables (urdf : xml -> option (string -> option (ujoint T))) (config : xml) (g : T) (hw : hwif) (mem0 : mem T) (s : rstate) (p0 : plant (transmission T) T).
Hypothesis HI : cm_initXml K dbg L urdf config g hw mem0 = Ok (Some (s, p0)).
Hypothesis HU : forall e, In e (ChildElements config "transmission") -> usable L e.
Variables (tick : X -> Z * X) (cb : ptr -> callback -> X -> mem T -> X * mem T) (pm pj : Z).
Hypothesis HC : keeps_measures cb.
Let H : hooks (sysw (transmission T) T X) := sys_hooks K dbg s tick cb pm pj.

Lemma start_joint k : k < rs_size s -> exists u, m_js (pl_mem p0) k = set_js_joint u (new_jointstate g).
Proof.
  intros LT. assert (HI' := HI). unfold cm_initXml in HI'. destruct (robot_initXml K L urdf config (m_act mem0) (new_robot (Some hw))) as [[[b r] acts]| | |] eqn:RI; cbn [bind] in HI'; try discriminate.
  destruct (C82_starts_exactly dbg P L HL urdf config g hw mem0 b r acts RI) as (res & E & _ & Q). rewrite HI in E. injection E as <-.
  destruct (Q s p0 eq_refl) as (_ & _ & _ & _ & _ & _ & _ & _ & _ & DJ & ALL). destruct (ALL k LT) as (i & j & n & (o & X1 & X2) & D).
  destruct (DJ i j n D) as (q & (o' & Y1 & Y2) & _ & M). rewrite X1 in Y1. injection Y1 as <-. rewrite X2 in Y2. injection Y2 as <-. eauto.
Qed.

Lemma keeps_joints_of : keeps_joints cb.
Proof. intros c k x m p. apply (HC c k x m p). Qed.
Lemma history_of strict m0 m : measured_history strict H m0 m -> history H m0 m.
Proof.
  induction 1 as [|m o a m' M IH MO S]; [apply hist_init|]. eapply hist_step; eauto. destruct o; auto. intros w. destruct (MO w) as [A B]. split; [exact A|].
  destruct (sy_plant w); auto. destruct B as (mm & B1 & B2). exists mm. split; [exact B1|]. intros q. apply (B2 q).
Qed.

Lemma sm_refl (j : jointstate T) : same_measures j j. Proof. repeat split. Qed.
Lemma sm_trans (a b c : jointstate T) : same_measures a b -> same_measures b c -> same_measures a c.
Proof. intros (A1 & A2 & A3 & A4) (B1 & B2 & B3 & B4). unfold same_measures. intuition congruence. Qed.
Lemma sm_sym (a b : jointstate T) : same_measures a b -> same_measures b a.
Proof. intros (A1 & A2 & A3 & A4). unfold same_measures. intuition congruence. Qed.
Definition untouched (j j' : jointstate T) : Prop := same_measures j j' /\ joint_statistics j' = joint_statistics j.
Lemma written_untouched cbs m m' k : written cb cbs m m' -> untouched (m_js m k) (m_js m' k).
Proof.
  intros W. apply (written_same cb (fun a b => untouched (m_js a k) (m_js b k))) with (cbs := cbs); auto.
  - intros m1. split; [apply sm_refl|reflexivity].
  - intros a b c [A1 A2] [B1 B2]. split; [eapply sm_trans; eauto|congruence].
  - intros c x m1 _. apply (HC (fst c) (snd c) x m1 k).
Qed.

(** the position pass, seen from one joint *)
Lemma sampled ts m ts' m' k : k < rs_size s -> propagateActuatorPositionToJointPosition K s ts m = Ok (ts', m') ->
  exists j st, js_joint j = js_joint (m_js m k) /\ commanded_effort j = commanded_effort (m_js m k) /\ joint_statistics j = joint_statistics (m_js m k) /\
    stats_update (joint_statistics j) j = Ok st /\ m_js m' k = set_joint_statistics st j.
Proof.
  intros LT E. unfold propagateActuatorPositionToJointPosition in E.
  destruct (over_transmissions _ ts (rs_in s) (rs_out s) m) as [[ts1 ma]| | |] eqn:O; cbn [bind] in E; try discriminate.
  destruct (over_joints update_statistics (seq 0 (rs_size s)) ma) as [mb| | |] eqn:U; cbn [bind] in E; try discriminate. injection E as <- <-.
  destruct (over_joints_spec _ _ _ _ (seq_NoDup _ _) U) as (_ & B2 & _). specialize (B2 k ltac:(apply in_seq; lia)).
  unfold update_statistics in B2. destruct (stats_update _ _) as [st| | |] eqn:SU; cbn [bind] in B2; try discriminate. injection B2 as B2.
  exists (m_js ma k), st. assert (SI : same_input (m_js ma k) (m_js m k)).
  { clear - O. revert O. generalize (rs_in s) (rs_out s). revert ts1 m ma. induction ts as [|t ts IH]; intros ts1 m ma ins outs O; cbn [over_transmissions] in O.
    - injection O as _ <-. repeat split.
    - destruct ins as [|i ins], outs as [|o outs]; try discriminate. destruct (tr_position K t i o m) as [[t1 m1]| | |] eqn:F; cbn [bind] in O; try discriminate.
      destruct (over_transmissions _ ts ins outs m1) as [[r m2]| | |] eqn:O2; cbn [bind] in O; try discriminate. injection O as <- <-.
      destruct (position_local dbg P t i o m) as [L1 _]. destruct (L1 _ _ F) as [(_ & _ & W3) _].
      apply (proj2 equiv_input) with (m_js m1 k); [apply (IH _ _ _ _ _ O2)|apply W3]. }
  destruct SI as (S1 & S2 & S3). rewrite <- B2. auto.
Qed.

Lemma service_untouched strict m o a m' p : step H m o (Ok (a, m')) -> measured_op strict o -> (forall l1 l2, o <> OpUpdate l1 l2) -> sy_plant (world m) = Ok p ->
  sy_out (world m') = sy_out (world m) /\ exists mm, sy_plant (world m') = Ok (set_pl_mem mm p) /\
    forall k, untouched (m_js (pl_mem p) k) (m_js mm k) /\ (strict -> commands_in_update cb k -> commanded_effort (m_js mm k) = commanded_effort (m_js (pl_mem p) k)).
Proof.
  intros S MO NU Q. pose proof (service_world' H m o a m' S) as SW.
  assert (AC : (exists cbs, acts H cbs (world m) (world m') /\ no_update cbs) /\ same_pub m m' ->
    sy_out (world m') = sy_out (world m) /\ exists mm, sy_plant (world m') = Ok (set_pl_mem mm p) /\
    forall k, untouched (m_js (pl_mem p) k) (m_js mm k) /\ (strict -> commands_in_update cb k -> commanded_effort (m_js mm k) = commanded_effort (m_js (pl_mem p) k))).
  { intros [(cbs & A & B) _]. split; [eapply acts_out; eauto|]. destruct (acts_plant K dbg s tick cb pm pj cbs _ _ A _ Q) as (mm & Q' & W). exists mm. split; [exact Q'|].
    intros k. split; [eapply written_untouched; eauto|]. intros _ CU. eapply written_command; [|exact W]. eapply Forall_impl; [|exact B]. intros [c kd] D. apply CU. exact D. }
  destruct o as [env name|name|st sp k|l1 l2|f|]; try (apply AC; exact SW).
  - exfalso. eapply NU; reflexivity.
  - clear AC. destruct SW as [-> _]. destruct (MO (world m)) as [O1 O2]. rewrite Q in O2. destruct O2 as (mm & Q' & F). split; [exact O1|].
    exists mm. split; [exact Q'|]. intros k. destruct (F k) as (F1 & F2 & F3). split; [split; assumption|auto].
Qed.

(** ** C85: the statistics of a joint follow its control cycles *)
Theorem C85_statistics_follow_cycles : forall (strict : Prop) m0 m p k, starts p0 m0 -> measured_history strict H m0 m -> (strict -> commands_in_update cb k) ->
  sy_plant (world m) = Ok p -> k < rs_size s ->
  exists h c, told strict k nzero (sy_out (world m)) h c /\ history_yields _ h (joint_statistics (m_js (pl_mem p) k)).
Proof.
  intros strict m0 m p k ST MH CU Q LT.
  cut (exists h c, told strict k nzero (sy_out (world m)) h c /\ history_yields _ h (joint_statistics (m_js (pl_mem p) k)) /\
        (strict -> commanded_effort (m_js (pl_mem p) k) = c)).
  { intros (h & c & A & B & _). eauto. }
  revert p Q. induction MH as [|m o a m' MH IH MO S]; intros p Q.
  - destruct ST as (_ & B & O). rewrite B in Q. injection Q as <-. rewrite O. destruct (start_joint k LT) as (u & J). rewrite J.
    exists [], nzero. split; [constructor|]. split; [apply hy_new|]. reflexivity.
  - destruct (fine_history dbg P L HL urdf config g hw mem0 s p0 HI HU tick cb pm pj keeps_joints_of m0 m ST (history_of _ _ _ MH)) as (_ & q & Qq & FQ).
    destruct (IH q Qq) as (h & c & TO & HY & CM). clear IH.
    assert (SV : (forall l1 l2, o <> OpUpdate l1 l2) -> exists h c, told strict k nzero (sy_out (world m')) h c /\ history_yields _ h (joint_statistics (m_js (pl_mem p) k)) /\
        (strict -> commanded_effort (m_js (pl_mem p) k) = c)).
    { intros NU. destruct (service_untouched strict m o a m' q S MO NU Qq) as (OO & mm & Q' & F). rewrite Q in Q'. injection Q' as ->. destruct (F k) as ((_ & F1) & F2).
      exists h, c. rewrite OO. cbn [pl_mem set_pl_mem]. rewrite F1. split; [exact TO|]. split; [exact HY|]. intros SS. rewrite (F2 SS (CU SS)). auto. }
    destruct o as [env name|name|st sp kk|l1 l2|f|]; try (apply SV; discriminate). clear SV.
    pose proof (service_world H m _ a m' S) as U. cbn in U.
    destruct (cycle' K dbg s tick cb pm pj l1 l2 m m' p U Q) as (q' & ts1 & m1 & m2 & cbs & mb & ms & ts2 & ma & wm & wj & pm1 & pj1 & cbs' & rest & Qq' & PR & ZE & WR & EN & EF & _ & we & PE & OE & M & J & PM & PJ & _ & OJ & WR2 & NU).
    rewrite Qq in Qq'. injection Qq' as <-.
    destruct (sampled _ _ _ _ _ LT PR) as (j & st & J1 & J2 & J3 & SU & M1).
    assert (MS : same_measures j (m_js ms k) /\ joint_statistics (m_js ms k) = st).
    { destruct (zero_spec s _ _ ZE) as (_ & Z2). destruct (enforce_spec s _ _ EN) as (_ & E2 & _). specialize (Z2 k LT). specialize (E2 k LT).
      destruct (written_untouched _ _ _ k WR) as [W1 W2]. rewrite Z2, M1 in W1, W2. unfold enforceLimits in E2.
      destruct (getLimits _) as [[lo hi]| | |]; cbn [bind] in E2; try discriminate. injection E2 as <-. split; [|exact W2].
      destruct W1 as (X1 & X2 & X3 & X4). repeat split; assumption. }
    destruct MS as [MS1 MS2].
    assert (TO1 : told strict k nzero (sy_out (world m) ++ [OutEffort ms ma]) (h ++ [Sampled j]) (commanded_effort (m_js ms k))).
    { eapply told_cycle; [exact TO|apply sm_sym; exact MS1|]. intros SS. rewrite J2. apply CM. exact SS. }
    assert (HY1 : history_yields _ (h ++ [Sampled j]) st). { eapply hy_sample; [exact HY|]. rewrite <- J3. exact SU. }
    assert (MA : m_js ma k = m_js ms k).
    { unfold propagateJointEffortToActuatorEffort in EF. destruct (over_actuators_local _ all_but_command equiv_cmd (fun t i o => effort_local dbg P t i o) _ _ _ _ _ _ EF) as (A & _). apply A. }
    assert (TAIL : forall out h2 mq, sy_out wj = out -> told strict k nzero out h2 (commanded_effort (m_js ms k)) -> pl_mem pj1 = mq -> history_yields _ h2 (joint_statistics (m_js mq k)) ->
              commanded_effort (m_js mq k) = commanded_effort (m_js ms k) ->
              exists h c, told strict k nzero (sy_out (world m')) h c /\ history_yields _ h (joint_statistics (m_js (pl_mem p) k)) /\ (strict -> commanded_effort (m_js (pl_mem p) k) = c)).
    { intros out h2 mq <- T2 <- HY2 C2. exists h2, (commanded_effort (m_js ms k)). rewrite OJ. destruct (written_untouched _ _ _ k WR2) as [_ W2]. rewrite W2.
      split; [exact T2|]. split; [exact HY2|]. intros SS. rewrite <- C2. eapply written_command; [|exact WR2]. eapply Forall_impl; [|exact NU]. intros [cc kd] D. apply (CU SS). exact D. }
    assert (FE : fine_plant dbg P hw s p0 (mkPlant ts2 ma (pl_hw q) (pl_js q) (pl_jstats q) (pl_astats q))).
    { destruct (fine_op dbg P hw s p0 OpPosition q FQ I (fun x => x)) as (t1 & x1 & R1 & F1). cbn [run_ops] in R1. rewrite PR in R1. cbn [bind] in R1. injection R1 as <- <-.
      destruct (fine_op dbg P hw s p0 OpZero _ F1 I (fun x => x)) as (t2 & x2 & R2 & F2). cbn [run_ops pl_mem set_pl_mem set_pl_ts pl_ts] in R2. rewrite ZE in R2. cbn [bind] in R2. injection R2 as <- <-.
      assert (F3 := fine_mem dbg P hw s p0 _ mb F2 (written_joints cb cbs _ _ keeps_joints_of WR)).
      destruct (fine_op dbg P hw s p0 OpEnforce _ F3 I (fun x => x)) as (t4 & x4 & R4 & F4). cbn [run_ops pl_mem set_pl_mem set_pl_ts pl_ts] in R4. rewrite EN in R4. cbn [bind] in R4. injection R4 as <- <-.
      destruct (fine_op dbg P hw s p0 OpEffort _ F4 I (fun x => x)) as (t5 & x5 & R5 & F5). cbn [run_ops pl_mem set_pl_mem set_pl_ts pl_ts] in R5. rewrite EF in R5. cbn [bind] in R5. injection R5 as <- <-.
      exact F5. }
    set (pe := mkPlant ts2 ma (pl_hw q) (pl_js q) (pl_jstats q) (pl_astats q)) in *. assert (ME : pl_mem pe = ma) by reflexivity. clearbody pe.
    destruct (mech_case K dbg s tick cb pm pj _ _ _ _ _ _ _ M PE PM) as [(-> & OM & _)|(t & m4 & js & acts & _ & _ & _ & FJ & FA & PM1 & OM)].
    + destruct (js_case K dbg s tick cb pm pj _ _ _ _ _ _ _ J PM PJ) as [(-> & OJ2 & _)|(t2 & msg & _ & _ & _ & _ & PJ1 & OJ2)]; rewrite OM, OE in OJ2.
      * eapply TAIL; [exact OJ2|exact TO1|exact ME|rewrite MA, MS2; exact HY1|rewrite MA; reflexivity].
      * eapply TAIL; [exact OJ2|apply told_joints; exact TO1|rewrite PJ1; exact ME|rewrite MA, MS2; exact HY1|rewrite MA; reflexivity].
    + destruct (fine_mech dbg P hw s p0 tick cb pm pj t we pe PE FE) as (m4' & js' & acts' & FJ' & FA' & SN & A4 & MJ & _ & F4). rewrite FJ in FJ'. injection FJ' as <- <-. rewrite FA in FA'. injection FA' as <-.
      specialize (MJ k LT). rewrite ME, MA in MJ. destruct SN as (_ & SN & _). destruct (SN k LT) as (u & sta & _ & N1 & RJ). rewrite ME, MA in RJ.
      assert (TO2 : told strict k nzero ((sy_out (world m) ++ [OutEffort ms ma]) ++ [OutStats t js acts]) ((h ++ [Sampled j]) ++ [Published]) (commanded_effort (m_js ms k))).
      { eapply told_stats; [exact TO1| |exact N1|exact HY1|].
        - rewrite sent_app. cbn [sent flat_map app]. intros Z. destruct (app_cons_not_nil _ _ _ (eq_sym Z)).
        - unfold reports_joint_statistics in RJ. rewrite MS2 in RJ. destruct RJ as (_ & _ & _ & _ & _ & _ & _ & RJ). exact RJ. }
      assert (HY2 : history_yields _ ((h ++ [Sampled j]) ++ [Published]) (joint_statistics (m_js m4 k))).
      { rewrite MJ. cbn [joint_statistics set_joint_statistics]. rewrite MS2. apply hy_publish. exact HY1. }
      assert (C4 : commanded_effort (m_js m4 k) = commanded_effort (m_js ms k)) by (rewrite MJ; reflexivity).
      destruct (js_case K dbg s tick cb pm pj _ _ _ _ _ _ _ J PM PJ) as [(-> & OJ2 & _)|(t2 & msg & _ & _ & _ & _ & PJ1 & OJ2)]; rewrite OM, OE in OJ2.
      * eapply (TAIL _ _ m4); [exact OJ2|exact TO2|rewrite PM1; reflexivity|exact HY2|exact C4].
      * eapply (TAIL _ _ m4); [exact OJ2|apply told_joints; exact TO2|rewrite PJ1, PM1; reflexivity|exact HY2|exact C4].
Qed.

(** ... and so does every entry of every statistics message. *)
Theorem C85_message_content : forall (strict : Prop) m0 m k o1 t js acts o2, starts p0 m0 -> measured_history strict H m0 m -> (strict -> commands_in_update cb k) ->
  k < rs_size s -> sy_out (world m) = o1 ++ OutStats t js acts :: o2 ->
  exists h c st st', told strict k nzero o1 h c /\ sent o1 <> [] /\ nth_error js k = Some st /\ history_yields _ h st' /\ shows st st'.
Proof.
  intros strict m0 m k o1 t js acts o2 ST MH CU LT E.
  destruct (fine_history dbg P L HL urdf config g hw mem0 s p0 HI HU tick cb pm pj keeps_joints_of m0 m ST (history_of _ _ _ MH)) as (_ & q & Q & _).
  destruct (C85_statistics_follow_cycles strict m0 m q k ST MH CU Q LT) as (h & c & TO & _). rewrite E in TO. apply told_message in TO. exact TO.
Qed.
End Whole.

Lemma Forall2_in_left {A B} (R : A -> B -> Prop) l l' x : Forall2 R l l' -> In x l -> exists y, In y l' /\ R x y.
Proof. induction 1 as [|a b l l' AB F IH]; intros I; [destruct I|]. destruct I as [<-|I]; [exists b; split; [left|]; auto|]. destruct (IH I) as (y & Y1 & Y2). exists y. split; [right|]; auto. Qed.
Lemma Forall2_in_right {A B} (R : A -> B -> Prop) l l' y : Forall2 R l l' -> In y l' -> exists x, In x l /\ R x y.
Proof. induction 1 as [|a b l l' AB F IH]; intros I; [destruct I|]. destruct I as [<-|I]; [exists a; split; [left|]; auto|]. destruct (IH I) as (x & Y1 & Y2). exists x. split; [right|]; auto. Qed.
Lemma before_snd {T} (l : list (jointstate T)) : forall c, map snd (commands_before c l) = l.
Proof. induction l as [|j l IH]; intros c; [reflexivity|]. cbn. rewrite IH. reflexivity. Qed.

(** what C85_message_content says of a message with the joint entries [js] after the log [o1] *)
Definition content {T} {N : Num T} (strict : Prop) (k : nat) (o1 : list (output T)) (js : list (jstat T)) : Prop :=
  exists h c st st', told strict k nzero o1 h c /\ sent o1 <> [] /\ nth_error js k = Some st /\ history_yields _ h st' /\ shows st st'.
Lemma log_odometer : forall k (o1 : list (output R)) js, content False k o1 js ->
  exists st, nth_error js k = Some st /\
    jo_odometer st = match map position (cycles k o1) with [] => 0%R | p :: l => displacement p l end.
Proof.
  intros k o1 js (h & c & st & st' & TO & _ & N1 & HY & SH).
  exists st. split; [exact N1|]. destruct SH as (_ & -> & _). rewrite (C36_odometer h st' HY). apply told_samples in TO.
  assert (EQ : sampled_positions h = map position (cycles k o1)).
  { rewrite <- (before_snd (cycles k o1) nzero). revert TO. generalize (commands_before nzero (cycles k o1)). intros l F.
    transitivity (map position (samples h)); [clear; induction h as [|[j|] h IH]; cbn; [reflexivity|f_equal; exact IH|exact IH]|].
    induction F as [|a b l l' (A & _) F IH]; [reflexivity|]. cbn [map]. rewrite IH. f_equal. apply A. }
  rewrite EQ. reflexivity.
Qed.

Lemma log_first : forall k (o1 : list (output R)) js, content False k o1 js -> unpublished o1 ->
  exists st j0 w, nth_error js k = Some st /\ cycles k o1 = j0 :: w /\
    (forall j, In j (j0 :: w) -> (jo_min_position st <= position j <= jo_max_position st)%R) /\
    (exists j, In j (j0 :: w) /\ jo_min_position st = position j) /\ (exists j, In j (j0 :: w) /\ jo_max_position st = position j) /\
    (forall j, In j w -> (Rabs (velocity j) <= jo_max_abs_velocity st /\ Rabs (measured_effort j) <= jo_max_abs_effort st)%R) /\
    (jo_max_abs_velocity st = 0%R \/ exists j, In j w /\ jo_max_abs_velocity st = Rabs (velocity j)) /\
    (jo_max_abs_effort st = 0%R \/ exists j, In j w /\ jo_max_abs_effort st = Rabs (measured_effort j)).
Proof.
  intros k o1 js (h & c & st & st' & TO & NE & N1 & HY & SH) U.
  destruct SH as (_ & _ & Smin & Smax & Svel & Seff). rewrite (told_unpublished _ _ _ _ _ _ TO U) in HY. apply told_samples in TO.
  unfold cycles in *. destruct (sent o1) as [|e l] eqn:SE; [congruence|]. cbn [map commands_before] in *. set (j0 := m_js (fst e) k) in *. set (w := map (fun e0 => m_js (fst e0) k) l) in *.
  inversion TO as [|a b l1 l2 A F E1 E2]. subst a l1. rewrite <- E2 in HY. clear E2 TO. destruct A as ((_ & P0 & _) & _). cbn [snd] in P0.
  destruct (C36_before_first_publication b l2 st' HY) as (A1 & (ja & A2 & A2') & (jb & A3 & A3') & A4 & A5 & A6).
  assert (FW : Forall2 same_measures w l2).
  { clear - F. revert F. rewrite <- (before_snd w (commanded_effort j0)) at 2. generalize (commands_before (commanded_effort j0) w). intros q F. induction F as [|a b q l' (A & _) F IH]; [constructor|]. constructor; assumption. }
  assert (TOL : forall j, In j l2 -> exists j', In j' w /\ same_measures j' j) by (intros j I; apply (Forall2_in_right _ _ _ _ FW I)).
  assert (TOR : forall j, In j w -> exists j', In j' l2 /\ same_measures j j') by (intros j I; apply (Forall2_in_left _ _ _ _ FW I)).
  exists st, j0, w. split; [exact N1|]. split; [reflexivity|]. rewrite Smin, Smax, Svel, Seff. repeat match goal with |- _ /\ _ => split end.
  - intros j [<-|I]; [rewrite <- P0; apply A1; left; reflexivity|]. destruct (TOR j I) as (j' & I' & (_ & P1 & _)). rewrite <- P1. apply A1. right. exact I'.
  - destruct A2 as [<-|I]; [exists j0; split; [left; reflexivity|congruence]|]. destruct (TOL _ I) as (j' & I' & (_ & P1 & _)). exists j'. split; [right; exact I'|congruence].
  - destruct A3 as [<-|I]; [exists j0; split; [left; reflexivity|congruence]|]. destruct (TOL _ I) as (j' & I' & (_ & P1 & _)). exists j'. split; [right; exact I'|congruence].
  - intros j I. destruct (TOR j I) as (j' & I' & (_ & _ & P2 & P3)). rewrite <- P2, <- P3. apply A4. exact I'.
  - destruct A5 as [A5|(j & I & A5)]; [left; exact A5|right]. destruct (TOL _ I) as (j' & I' & (_ & _ & P2 & _)). exists j'. split; [exact I'|congruence].
  - destruct A6 as [A6|(j & I & A6)]; [left; exact A6|right]. destruct (TOL _ I) as (j' & I' & (_ & _ & _ & P3)). exists j'. split; [exact I'|congruence].
Qed.

Lemma log_range : forall k o0 t0 js0 acts0 (o1 : list (output B64)) js, content False k (o0 ++ OutStats t0 js0 acts0 :: o1) js -> unpublished o1 ->
  exists st, nth_error js k = Some st /\
  (forall j, In j (cycles k o1) -> not_nan (position j) -> fle (jo_min_position st) (position j) /\ fle (position j) (jo_max_position st)) /\
  (forall j, In j (cycles k o1) -> not_nan (velocity j) -> fle (Babs (velocity j)) (jo_max_abs_velocity st)) /\
  (forall j, In j (cycles k o1) -> not_nan (measured_effort j) -> fle (Babs (measured_effort j)) (jo_max_abs_effort st)) /\
  ((exists j, In j (cycles k o1) /\ Beqb (jo_max_abs_velocity st) (Babs (velocity j)) = true) \/ Beqb (jo_max_abs_velocity st) f0 = true) /\
  ((exists j, In j (cycles k o1) /\ Beqb (jo_max_abs_effort st) (Babs (measured_effort j)) = true) \/ Beqb (jo_max_abs_effort st) f0 = true).
Proof.
  intros k o0 t0 js0 acts0 o1 js (h & c & st & st' & TO & _ & N1 & HY & SH) U.
  destruct (told_window _ _ _ _ _ _ _ _ _ _ TO U) as (pre & w & -> & IN & F). destruct SH as (_ & _ & Smin & Smax & Svel & Seff).
  destruct (C36_statistics_bound_samples pre w st' HY IN) as (A1 & A2 & A3 & A4 & A5).
  assert (FW : Forall2 same_measures (cycles k o1) w).
  { clear - F. revert F. rewrite <- (before_snd (cycles k o1) (last_command k nzero o0)) at 2. generalize (commands_before (last_command k nzero o0) (cycles k o1)). intros q F. induction F as [|a b q l' (A & _) F IH]; [constructor|]. constructor; assumption. }
  assert (TOL : forall j, In j w -> exists j', In j' (cycles k o1) /\ same_measures j' j) by (intros j I; apply (Forall2_in_right _ _ _ _ FW I)).
  assert (TOR : forall j, In j (cycles k o1) -> exists j', In j' w /\ same_measures j j') by (intros j I; apply (Forall2_in_left _ _ _ _ FW I)).
  exists st. split; [exact N1|]. rewrite Smin, Smax, Svel, Seff. repeat match goal with |- _ /\ _ => split end.
  - intros j I NN. destruct (TOR j I) as (j' & I' & (_ & P1 & _)). rewrite <- P1 in *. apply A1; assumption.
  - intros j I NN. destruct (TOR j I) as (j' & I' & (_ & _ & P1 & _)). rewrite <- P1 in *. apply A2; assumption.
  - intros j I NN. destruct (TOR j I) as (j' & I' & (_ & _ & _ & P1)). rewrite <- P1 in *. apply A3; assumption.
  - destruct A4 as [(j & I & A4)|A4]; [left|right; exact A4]. destruct (TOL _ I) as (j' & I' & (_ & _ & P2 & _)). exists j'. split; [exact I'|]. rewrite <- P2. exact A4.
  - destruct A5 as [(j & I & A6)|A6]; [left|right; exact A6]. destruct (TOL _ I) as (j' & I' & (_ & _ & _ & P2)). exists j'. split; [exact I'|]. rewrite <- P2. exact A6.
Qed.

Lemma log_violated : forall k o0 t0 js0 acts0 (o1 : list (output B64)) js, content True k (o0 ++ OutStats t0 js0 acts0 :: o1) js -> unpublished o1 ->
  exists st, nth_error js k = Some st /\
  (jo_violated_limits st = true <->
   exists c j u, In (c, j) (commands_before (last (map commanded_effort (cycles k o0)) nzero) (cycles k o1)) /\
     js_joint j = Some u /\ uj_safety u <> None /\ uj_limits u <> None /\ flt (Babs (measured_effort j)) (Babs c)).
Proof.
  intros k o0 t0 js0 acts0 o1 js (h & c & st & st' & TO & _ & N1 & HY & SH) U.
  destruct (told_window _ _ _ _ _ _ _ _ _ _ TO U) as (pre & w & -> & IN & F). destruct SH as (SV & _). exists st. split; [exact N1|]. rewrite SV.
  rewrite (C37_violated_limits pre w st' HY IN). fold (last_command k nzero o0). split.
  - intros (j & u & I & J & A1 & A2 & A3). destruct (Forall2_in_right _ _ _ _ F I) as ([c1 j1] & I1 & (J1 & _ & _ & M1) & C1). cbn [fst snd] in *.
    exists c1, j1, u. split; [exact I1|]. rewrite <- J1, <- M1. split; [exact J|]. split; [exact A1|]. split; [exact A2|]. rewrite (C1 Logic.I) in A3. exact A3.
  - intros (c1 & j & u & I & J & A1 & A2 & A3). destruct (Forall2_in_left _ _ _ _ F I) as (j1 & I1 & (J1 & _ & _ & M1) & C1). cbn [fst snd] in *.
    exists j1, u. split; [exact I1|]. rewrite J1, M1, (C1 Logic.I). auto.
Qed.

(** ** Over the reals: the odometer of a message is the distance travelled from cycle to cycle, since the start. *)
Section Real.
Context {X : Type} {G : Trig R}.
Variables (dbg : bool) (P : parsers R) (L : loader (transmission R)).
Hypothesis HL : forall c t, ld_create L c = Some t -> is_new t.
Notation K := (builtin dbg P).
Variables (urdf : xml -> option (string -> option (ujoint R))) (config : xml) (g : R) (hw : hwif) (mem0 : mem R) (s : rstate) (p0 : plant (transmission R) R).
Hypothesis HI : cm_initXml K dbg L urdf config g hw mem0 = Ok (Some (s, p0)).
Hypothesis HU : forall e, In e (ChildElements config "transmission") -> usable L e.
Variables (tick : X -> Z * X) (cb : ptr -> callback -> X -> mem R -> X * mem R) (pm pj : Z).
Hypothesis HC : keeps_measures cb.
Let H : hooks (sysw (transmission R) R X) := sys_hooks K dbg s tick cb pm pj.

Theorem C85_odometer : forall m0 m k o1 t js acts o2, starts p0 m0 -> measured_history False H m0 m -> k < rs_size s ->
  sy_out (world m) = o1 ++ OutStats t js acts :: o2 ->
  exists st, nth_error js k = Some st /\
    jo_odometer st = match map position (cycles k o1) with [] => 0%R | p :: l => displacement p l end.
Proof.
  intros m0 m k o1 t js acts o2 ST MH LT E.
  apply (log_odometer k o1 js).
  exact (C85_message_content dbg P L HL urdf config g hw mem0 s p0 HI HU tick cb pm pj HC False m0 m k o1 t js acts o2 ST MH ltac:(contradiction) LT E).
Qed.

(** The first message covers all cycles so far; its range is exact, and only the first cycle is left out of the maxima. *)
Theorem C85_first_message : forall m0 m k o1 t js acts o2, starts p0 m0 -> measured_history False H m0 m -> k < rs_size s ->
  sy_out (world m) = o1 ++ OutStats t js acts :: o2 -> unpublished o1 ->
  exists st j0 w, nth_error js k = Some st /\ cycles k o1 = j0 :: w /\
    (forall j, In j (j0 :: w) -> (jo_min_position st <= position j <= jo_max_position st)%R) /\
    (exists j, In j (j0 :: w) /\ jo_min_position st = position j) /\ (exists j, In j (j0 :: w) /\ jo_max_position st = position j) /\
    (forall j, In j w -> (Rabs (velocity j) <= jo_max_abs_velocity st /\ Rabs (measured_effort j) <= jo_max_abs_effort st)%R) /\
    (jo_max_abs_velocity st = 0%R \/ exists j, In j w /\ jo_max_abs_velocity st = Rabs (velocity j)) /\
    (jo_max_abs_effort st = 0%R \/ exists j, In j w /\ jo_max_abs_effort st = Rabs (measured_effort j)).
Proof.
  intros m0 m k o1 t js acts o2 ST MH LT E U.
  apply (log_first k o1 js); [|exact U].
  exact (C85_message_content dbg P L HL urdf config g hw mem0 s p0 HI HU tick cb pm pj HC False m0 m k o1 t js acts o2 ST MH ltac:(contradiction) LT E).
Qed.
End Real.

(** ** In binary64: a later message covers exactly the cycles since the one before it. *)
Section Binary.
Context {X : Type} {G : Trig B64}.
Variables (dbg : bool) (P : parsers B64) (L : loader (transmission B64)).
Hypothesis HL : forall c t, ld_create L c = Some t -> is_new t.
Notation K := (builtin dbg P).
Variables (urdf : xml -> option (string -> option (ujoint B64))) (config : xml) (g : B64) (hw : hwif) (mem0 : mem B64) (s : rstate) (p0 : plant (transmission B64) B64).
Hypothesis HI : cm_initXml K dbg L urdf config g hw mem0 = Ok (Some (s, p0)).
Hypothesis HU : forall e, In e (ChildElements config "transmission") -> usable L e.
Variables (tick : X -> Z * X) (cb : ptr -> callback -> X -> mem B64 -> X * mem B64) (pm pj : Z).
Hypothesis HC : keeps_measures cb.
Let H : hooks (sysw (transmission B64) B64 X) := sys_hooks K dbg s tick cb pm pj.

Theorem C85_range_covers_cycles : forall m0 m k o0 t0 js0 acts0 o1 t js acts o2, starts p0 m0 -> measured_history False H m0 m -> k < rs_size s ->
  sy_out (world m) = o0 ++ OutStats t0 js0 acts0 :: o1 ++ OutStats t js acts :: o2 -> unpublished o1 ->
  exists st, nth_error js k = Some st /\
  (forall j, In j (cycles k o1) -> not_nan (position j) -> fle (jo_min_position st) (position j) /\ fle (position j) (jo_max_position st)) /\
  (forall j, In j (cycles k o1) -> not_nan (velocity j) -> fle (Babs (velocity j)) (jo_max_abs_velocity st)) /\
  (forall j, In j (cycles k o1) -> not_nan (measured_effort j) -> fle (Babs (measured_effort j)) (jo_max_abs_effort st)) /\
  ((exists j, In j (cycles k o1) /\ Beqb (jo_max_abs_velocity st) (Babs (velocity j)) = true) \/ Beqb (jo_max_abs_velocity st) f0 = true) /\
  ((exists j, In j (cycles k o1) /\ Beqb (jo_max_abs_effort st) (Babs (measured_effort j)) = true) \/ Beqb (jo_max_abs_effort st) f0 = true).
Proof.
  intros m0 m k o0 t0 js0 acts0 o1 t js acts o2 ST MH LT E U.
  replace (o0 ++ OutStats t0 js0 acts0 :: o1 ++ OutStats t js acts :: o2) with ((o0 ++ OutStats t0 js0 acts0 :: o1) ++ OutStats t js acts :: o2) in E by (rewrite <- app_assoc; reflexivity).
  apply (log_range k o0 t0 js0 acts0 o1 js); [|exact U].
  exact (C85_message_content dbg P L HL urdf config g hw mem0 s p0 HI HU tick cb pm pj HC False m0 m k _ t js acts o2 ST MH ltac:(contradiction) LT E).
Qed.

(** The violated-limits flag of such a message: raised exactly if in one of those cycles the joint, having limits and safety,
    measured less effort than was sent to it the cycle before. *)
Theorem C85_violated_limits : forall m0 m k o0 t0 js0 acts0 o1 t js acts o2, starts p0 m0 -> measured_history True H m0 m -> commands_in_update cb k -> k < rs_size s ->
  sy_out (world m) = o0 ++ OutStats t0 js0 acts0 :: o1 ++ OutStats t js acts :: o2 -> unpublished o1 ->
  exists st, nth_error js k = Some st /\
  (jo_violated_limits st = true <->
   exists c j u, In (c, j) (commands_before (last (map commanded_effort (cycles k o0)) nzero) (cycles k o1)) /\
     js_joint j = Some u /\ uj_safety u <> None /\ uj_limits u <> None /\ flt (Babs (measured_effort j)) (Babs c)).
Proof.
  intros m0 m k o0 t0 js0 acts0 o1 t js acts o2 ST MH CU LT E U.
  replace (o0 ++ OutStats t0 js0 acts0 :: o1 ++ OutStats t js acts :: o2) with ((o0 ++ OutStats t0 js0 acts0 :: o1) ++ OutStats t js acts :: o2) in E by (rewrite <- app_assoc; reflexivity).
  apply (log_violated k o0 t0 js0 acts0 o1 js); [|exact U].
  exact (C85_message_content dbg P L HL urdf config g hw mem0 s p0 HI HU tick cb pm pj HC True m0 m k _ t js acts o2 ST MH (fun _ => CU) LT E).
Qed.
End Binary.

(** ** A concrete system: the robot of C74, its joint being moved from outside by 1 before each cycle. *)
Lemma exec_measured {Tr T X} (strict : Prop) (H : hooks (sysw Tr T X)) m0 os : forall m m', Forall (measured_op strict) os -> measured_history strict H m0 m ->
  exec H os m = Some m' -> measured_history strict H m0 m'.
Proof.
  induction os as [|o os IH]; intros m m' F HH E; cbn [exec] in E; [injection E as <-; exact HH|].
  apply Forall_cons_iff in F. destruct F as [O1 F].
  destruct o as [env n|n|a b k|l1 l2|f|].
  - destruct (please m) eqn:Ep; [discriminate|].
    destruct (loadController H env n m) as [[a m1]| | |] eqn:E1; try discriminate.
    apply (IH m1 m'); auto. apply (mh_step strict H m0 m (OpLoad env n) a m1); auto. rewrite <- E1. now constructor.
  - destruct (please m) eqn:Ep; [discriminate|].
    destruct (unloadController n m) as [[a m1]| | |] eqn:E1; try discriminate.
    apply (IH m1 m'); auto. apply (mh_step strict H m0 m (OpUnload n) a m1); auto. rewrite <- E1. now constructor.
  - destruct (please m) eqn:Ep; [discriminate|].
    pose proof (step_switch H m a b k Ep) as Hs.
    destruct (switch_body a b k m) as [m1|m1|m1|]; try discriminate;
      (apply (IH m1 m'); auto; eapply mh_step; [exact HH|exact O1|exact Hs]).
  - pose proof (step_update H m l1 l2) as Hs.
    destruct (update H l1 l2 m) as [m1| | |]; try discriminate.
    cbn [bind] in *. apply (IH m1 m'); auto. eapply mh_step; [exact HH|exact O1|exact Hs].
  - apply (IH _ m') in E; auto. eapply mh_step; [exact HH|exact O1|constructor].
  - destruct (please m) eqn:Ep; [discriminate|]. destruct (lists m (cur m)) eqn:El; [|discriminate].
    apply (IH _ m') in E; auto. eapply mh_step; [exact HH|exact O1|now constructor].
Qed.

(** the next statistics message of a log *)
Fixpoint cut {T} (l : list (output T)) : option (list (output T) * (Z * list (jstat T) * list (astat T)) * list (output T)) :=
  match l with
  | [] => None
  | OutStats t js acts :: b => Some ([], (t, js, acts), b)
  | o :: l' => match cut l' with Some (a, x, b) => Some (o :: a, x, b) | None => None end
  end.
Lemma cut_spec {T} (l : list (output T)) : forall a t js acts b, cut l = Some (a, (t, js, acts), b) -> l = a ++ OutStats t js acts :: b /\ unpublished a.
Proof.
  induction l as [|o l IH]; intros a t js acts b E; [discriminate|]. destruct o as [m1 m2|t1 msg|t1 js1 acts1]; cbn [cut] in E.
  3:{ injection E as <- <- <- <- <-. split; [reflexivity|]. intros o []. }
  all: destruct (cut l) as [[[a' [[t' js'] acts']] b']|]; [|discriminate]; injection E as <- <- <- <- <-;
    destruct (IH _ _ _ _ _ eq_refl) as [-> U]; (split; [reflexivity|]); intros o [<-|I]; [reflexivity|apply U; exact I].
Qed.

Section Ex.
Context {G : Trig B64}.
Definition exq_move (z : Z) (w : sysw (transmission B64) B64 Z) : sysw (transmission B64) B64 Z :=
  match sy_plant w with
  | Ok p => mkSysw (Ok (set_pl_mem (act_upd 0 (set_a_position (nofZ z)) (pl_mem p)) p)) (sy_user w) (sy_out w)
  | _ => w
  end.
Lemma exq_move_outside strict z : measured_op strict (OpEnv (exq_move z)).
Proof.
  intros w. unfold exq_move. destruct (sy_plant w) as [p| | |] eqn:E; cbn [sy_out sy_plant]; rewrite ?E; split; auto.
  eexists. split; [reflexivity|]. intros k. repeat split.
Qed.
Definition exq_ops : list (op (W:=sysw (transmission B64) B64 Z)) :=
  [OpLoad exEnv "a"; OpUpdate true true; OpSwitch ["a"] [] STRICT] ++
  List.concat (map (fun z => [OpEnv (exq_move z); OpUpdate true true]) [2; 4; 6; 8; 10; 12]%Z).
Definition exq : mgr (sysw (transmission B64) B64 Z) := match exec exb_hooks exq_ops exb0 with Some m => m | None => exb0 end.
Lemma exq_history : starts exb_plant exb0 /\ measured_history True exb_hooks exb0 exq.
Proof.
  split; [repeat split|]. apply exec_measured with exq_ops exb0; [|constructor|].
  - unfold exq_ops. cbn [List.concat map app]. repeat (constructor; [first [exact I|apply exq_move_outside]|]). constructor.
  - unfold exq. assert (Y : match exec exb_hooks exq_ops exb0 with Some _ => true | None => false end = true) by (vm_compute; reflexivity).
    destruct (exec exb_hooks exq_ops exb0); [reflexivity|discriminate].
Qed.
Lemma exq_keeps : keeps_measures exd_cb.
Proof.
  intros c k x m p. unfold exd_cb. destruct k; cbn [snd]; try (split; [repeat split|reflexivity]). unfold js_upd. cbn [m_js]. unfold Transmission.upd.
  destruct (Nat.eqb p 0); (split; [repeat split|reflexivity]).
Qed.
Lemma exq_commands : commands_in_update exd_cb 0.
Proof. intros c kind NE x m. cbn [fst snd]. destruct kind; try reflexivity. congruence. Qed.

(** the log: seven cycles (E), statistics (S) after the third and the sixth *)
Definition kind_of {T} (o : output T) : string := match o with OutEffort _ _ => "E" | OutJoints _ _ => "J" | OutStats _ _ _ => "S" end.
Example C85_ex_log : map kind_of (filter (fun o => negb (String.eqb (kind_of o) "J")) (sy_out (world exq))) = ["E"; "E"; "E"; "S"; "E"; "E"; "E"; "S"; "E"].
Proof. vm_compute. reflexivity. Qed.
(** the positions at the cycles, and what the two messages report: odometer, range, violated limits *)
Example C85_ex_messages :
  map (fun j => B2SF (position j)) (cycles 0 (sy_out (world exq))) = map (fun z => B2SF (nofZ z : B64)) [0; 1; 2; 3; 4; 5; 6]%Z /\
  map (fun x => map (fun y => (map B2SF [jo_odometer y; jo_min_position y; jo_max_position y], jo_violated_limits y)) (snd (fst x))) (stat_messages (sy_out (world exq)))
   = [[(map (fun z => B2SF (nofZ z : B64)) [2; 0; 2], false)]; [(map (fun z => B2SF (nofZ z : B64)) [5; 2; 5], true)]]%Z.
Proof. vm_compute. split; reflexivity. Qed.
(** every hypothesis of C85_violated_limits (and with it of the others) is met by the second message *)
Example C85_ex : exists o0 t0 js0 acts0 o1 t js acts o2 st,
  sy_out (world exq) = o0 ++ OutStats t0 js0 acts0 :: o1 ++ OutStats t js acts :: o2 /\ unpublished o1 /\ nth_error js 0 = Some st /\
  (jo_violated_limits st = true <->
   exists c j u, In (c, j) (commands_before (last (map commanded_effort (cycles 0 o0)) nzero) (cycles 0 o1)) /\
     js_joint j = Some u /\ uj_safety u <> None /\ uj_limits u <> None /\ flt (Babs (measured_effort j)) (Babs c)).
Proof.
  assert (Y : match cut (sy_out (world exq)) with Some (_, _, b) => match cut b with Some _ => true | None => false end | None => false end = true) by (vm_compute; reflexivity).
  destruct (cut (sy_out (world exq))) as [[[o0 [[t0 js0] acts0]] b]|] eqn:C1; [|discriminate].
  destruct (cut b) as [[[o1 [[t js] acts]] o2]|] eqn:C2; [|discriminate]. clear Y.
  apply cut_spec in C1. apply cut_spec in C2. destruct C1 as [C1 _]. destruct C2 as [-> U]. destruct exq_history as [ST MH].
  destruct (C85_violated_limits true exb_P exb_L exb_new exb_urdf exb_root nzero ex_hw exb_mem exb_state exb_plant exb_loaded exb_usable exd_tick exd_cb 45%Z 25%Z exq_keeps
    exb0 exq 0 o0 t0 js0 acts0 o1 t js acts o2 ST MH exq_commands ltac:(repeat constructor) C1 U) as (st & N1 & V).
  exists o0, t0, js0, acts0, o1, t, js, acts, o2, st. auto.
Qed.
End Ex.
