(** C92: the published joint statistics when service threads and the hardware run between any two steps of the realtime thread. *)
From Coq Require Import List String Arith Bool ZArith Lia Reals Lra.
From Flocq Require Import IEEE754.BinarySingleNaN.
From Verif.Model Require Import Base Num Joint Hardware Xml Transmission Simple Wrist Belt Gripper Robot Builtin Scheduler Controller Manager ManagerConc System.
From Verif.Spec Require Import LocalSpec JointSpec RobotSpec ManagerSpec SystemSpec StatSystemSpec ConcSpec ConcSystemSpec.
From Verif.Proofs Require Import Locality OverLocal RobotProofs WorldSteps SystemProofs ConcWorld ConcSystem.
From Verif.Props Require Import RobotProps IndependenceProps ManagerProps JointStatsProps SystemProps StartupProps MotorProps StatSystemProps ConcProps ConcSystemProps ConcMotorProps.
Import ListNotations.
Local Open Scope string_scope.
Local Open Scope list_scope.

Section Whole.
Context {T X : Type} {N : Num T} {G : Trig T}.
Variables (dbg : bool) (P : parsers T) (L : loader (transmission T)).
Hypothesis HL : forall c t, ld_create L c = Some t -> is_new t.
Notation K := (builtin dbg P).
Variables (urdf : xml -> option (string -> option (ujoint T))) (config : xml) (g : T) (hw : hwif) (mem0 : mem T) (s : rstate) (p0 : plant (transmission T) T).
Hypothesis HI : cm_initXml K dbg L urdf config g hw mem0 = Ok (Some (s, p0)).
Hypothesis HU : forall e, In e (ChildElements config "transmission") -> usable L e.
Variables (tick : X -> Z * X) (cb : ptr -> callback -> X -> mem T -> X * mem T) (pm pj : Z).
Hypothesis HC : keeps_measures cb.
Let H : hooks (sysw (transmission T) T X) := sys_hooks K dbg s tick cb pm pj.

Lemma outside_of (strict : Prop) (ls : list (label (sysw (transmission T) T X))) : measured_labels strict ls -> outside_labels ls.
Proof.
  intros M. eapply Forall_impl; [|exact M]. intros l ML. destruct l; auto. intros w. destruct (ML w) as [A B]. split; [exact A|].
  destruct (sy_plant w); auto. destruct B as (mm & B1 & B2). exists mm. split; [exact B1|]. intros q. apply (B2 q).
Qed.

(** steps of the other threads and of the outside *)
Lemma other_untouched (strict : Prop) l c c' p : bstep H l c = Some (Ok c') -> (forall a b, l <> LRt a b) ->
  match l with LEnv f => outside_measures strict f | _ => True end -> sy_plant (world (mg c)) = Ok p ->
  rt c' = rt c /\ sy_out (world (mg c')) = sy_out (world (mg c)) /\ exists mm, sy_plant (world (mg c')) = Ok (set_pl_mem mm p) /\
    forall k, untouched (m_js (pl_mem p) k) (m_js mm k) /\ (strict -> commands_in_update cb k -> commanded_effort (m_js mm k) = commanded_effort (m_js (pl_mem p) k)).
Proof.
  intros E NR O Q. pose proof (bstep_world H _ _ _ E) as B.
  assert (GO : rt c' = rt c /\ (exists cbs, Forall is_init cbs /\ moved H cbs (mg c) (mg c')) ->
    rt c' = rt c /\ sy_out (world (mg c')) = sy_out (world (mg c)) /\ exists mm, sy_plant (world (mg c')) = Ok (set_pl_mem mm p) /\
    forall k, untouched (m_js (pl_mem p) k) (m_js mm k) /\ (strict -> commands_in_update cb k -> commanded_effort (m_js mm k) = commanded_effort (m_js (pl_mem p) k))).
  { intros (R1 & cbs & IN & [A _]). split; [exact R1|]. split; [eapply acts_out; eauto|]. destruct (acts_plant K dbg s tick cb pm pj cbs _ _ A _ Q) as (mm & Q' & W).
    exists mm. split; [exact Q'|]. intros k. split; [eapply written_untouched; eauto|]. intros _ CU. eapply written_command; [|exact W].
    eapply Forall_impl; [|exact IN]. intros [d kd] (b & D). apply CU. cbn [snd] in D. subst kd. discriminate. }
  destruct l as [a b|k|k srv pr| | | |f]; try exact (GO B); [destruct (NR a b eq_refl)|]. clear GO.
  destruct B as (R1 & WE & S). specialize (O (world (mg c))) as [O1 O2]. rewrite Q, <- WE in O2. rewrite <- WE in O1. destruct O2 as (mm & Q' & F).
  split; [exact R1|]. split; [exact O1|]. exists mm. split; [exact Q'|]. intros k. destruct (F k) as (F1 & F2 & F3). split; [split; assumption|auto].
Qed.

(** what holds of joint [k] at each program point of the cycle, after the log told as history [h] with last command [cc] *)
Definition point (strict : Prop) (k : nat) (pc : rpc) (out : list (output T)) (h : list (stat_op T)) (cc : T) (j : jointstate T) : Prop :=
  match pc with
  | RRestart _ | RRestarting _ | RUpdate _ | REffort =>
      exists j0, history_yields _ (h ++ [Sampled j0]) (joint_statistics j) /\ same_measures j0 j /\ (strict -> commanded_effort j0 = cc)
  | RPub1 | RFill _ => history_yields _ h (joint_statistics j) /\ (strict -> commanded_effort j = cc) /\ sent out <> []
  | _ => history_yields _ h (joint_statistics j) /\ (strict -> commanded_effort j = cc)
  end.
Lemma point_untouched (strict : Prop) k pc out h cc j j' : untouched j j' -> (strict -> commanded_effort j' = commanded_effort j) -> point strict k pc out h cc j -> point strict k pc out h cc j'.
Proof.
  intros [U1 U2] U3 Q. unfold point in *. rewrite U2.
  assert (C : (strict -> commanded_effort j = cc) -> strict -> commanded_effort j' = cc) by (intros A SS; rewrite (U3 SS); auto).
  destruct pc; try (destruct Q as [Q1 Q2]; split; [exact Q1|]; auto; fail);
    try (destruct Q as (Q1 & Q2 & Q3); split; [exact Q1|]; auto; fail);
    (destruct Q as (j0 & Q1 & Q2 & Q3); exists j0; split; [exact Q1|]; split; [eapply sm_trans; eauto|exact Q3]).
Qed.

Lemma conc_told : forall (strict : Prop) m0 ls c p k, starts p0 m0 -> steps H (quiet m0) ls c -> measured_labels strict ls -> (strict -> commands_in_update cb k) ->
  sy_plant (world (mg c)) = Ok p -> k < rs_size s ->
  exists h cc, told strict k nzero (sy_out (world (mg c))) h cc /\ point strict k (rt c) (sy_out (world (mg c))) h cc (m_js (pl_mem p) k).
Proof.
  intros strict m0 ls c p k ST S ML CU Q LT. revert p Q. remember (quiet m0) as c0 eqn:E0. induction S as [c0|c0 ls c1 l c2 S IH E]; intros p Q; subst c0.
  - cbn [quiet mg rt] in *. destruct ST as (_ & B & O). rewrite B in Q. injection Q as <-. rewrite O.
    destruct (start_joint dbg P L HL urdf config g hw mem0 s p0 HI k LT) as (u & J). rewrite J.
    exists [], nzero. split; [constructor|]. split; [apply hy_new|]. reflexivity.
  - apply Forall_app in ML. destruct ML as [ML ML1]. inversion ML1 as [|? ? ML2 _]; subst. specialize (IH eq_refl ML).
    assert (KJ := keeps_joints_of cb HC).
    destruct (fine_steps dbg P L HL urdf config g hw mem0 s p0 HI HU tick cb pm pj KJ m0 ls c1 ST S (outside_of _ _ ML)) as (q & Qq & FQ).
    destruct (IH q Qq) as (h & cc & TO & PT). clear IH.
    assert (CASES : (exists a b, l = LRt a b) \/ forall a b, l <> LRt a b) by (destruct l; [left; eauto|right; congruence..]).
    destruct CASES as [(a & b & ->)|NR].
    2:{ destruct (other_untouched strict l c1 c2 q E NR ML2 Qq) as (R1 & OO & mm & Q' & F). rewrite Q in Q'. injection Q' as ->. destruct (F k) as [F1 F2].
        exists h, cc. rewrite OO, R1. split; [exact TO|]. cbn [pl_mem set_pl_mem]. eapply point_untouched; [exact F1| |exact PT]. auto. }
    destruct (rt_plant K dbg s tick cb pm pj a b c1 c2 p E Q) as (q' & Qq' & SS). rewrite Qq in Qq'. injection Qq' as <-.
    cbn [sys_step] in SS. unfold quiet_out, out_of in SS.
    (* steps that only run callbacks *)
    assert (WRT : forall cbs m, written cb cbs (pl_mem q) m -> untouched (m_js (pl_mem q) k) (m_js m k)) by (intros cbs m W; eapply written_untouched; eauto).
    assert (IDLE : (exists cbs m, no_update cbs /\ written cb cbs (pl_mem q) m /\ p = set_pl_mem m q) /\ quiet_out c1 c2 /\
        match rt c2 with RIdle | RGot _ | RBegin | RStop _ | RStart _ | REnd => True | _ => False end ->
        history_yields _ h (joint_statistics (m_js (pl_mem q) k)) /\ (strict -> commanded_effort (m_js (pl_mem q) k) = cc) ->
        exists h cc, told strict k nzero (sy_out (world (mg c2))) h cc /\ point strict k (rt c2) (sy_out (world (mg c2))) h cc (m_js (pl_mem p) k)).
    { intros ((cbs & m & NU & W & ->) & [OO _] & PC) [HY CM]. unfold out_of in OO. exists h, cc. rewrite OO. split; [exact TO|]. cbn [pl_mem set_pl_mem].
      destruct (WRT _ _ W) as [_ W2]. assert (R : history_yields _ h (joint_statistics (m_js m k)) /\ (strict -> commanded_effort (m_js m k) = cc)).
      { rewrite W2. split; [exact HY|]. intros SS'. rewrite <- (CM SS'). eapply written_command; [|exact W]. eapply Forall_impl; [|exact NU]. intros [d kd] D. apply (CU SS'). exact D. }
      unfold point. destruct (rt c2); try contradiction; exact R. }
    assert (BUSY : (exists cbs m, written cb cbs (pl_mem q) m /\ p = set_pl_mem m q) -> sy_out (world (mg c2)) = sy_out (world (mg c1)) ->
        match rt c2 with RRestart _ | RRestarting _ | RUpdate _ => True | _ => False end ->
        (exists j0, history_yields _ (h ++ [Sampled j0]) (joint_statistics (m_js (pl_mem q) k)) /\ same_measures j0 (m_js (pl_mem q) k) /\ (strict -> commanded_effort j0 = cc)) ->
        exists h cc, told strict k nzero (sy_out (world (mg c2))) h cc /\ point strict k (rt c2) (sy_out (world (mg c2))) h cc (m_js (pl_mem p) k)).
    { intros (cbs & m & W & ->) OO PC (j0 & HY & SM & CM). exists h, cc. rewrite OO. split; [exact TO|]. cbn [pl_mem set_pl_mem].
      destruct (WRT _ _ W) as [W1 W2]. unfold point. assert (R : exists j0, history_yields _ (h ++ [Sampled j0]) (joint_statistics (m_js m k)) /\ same_measures j0 (m_js m k) /\ (strict -> commanded_effort j0 = cc)).
      { exists j0. rewrite W2. split; [exact HY|]. split; [eapply sm_trans; eauto|exact CM]. }
      destruct (rt c2); try contradiction; exact R. }
    destruct (rt c1) as [|x| |i|i|i| | |t| | |ps|ps|] eqn:RC.
    1,2,11,12,13,14: exact (IDLE SS PT).
    + (* positions and zero *)
      destruct SS as (ts & m1 & m2 & PR & ZE & -> & [OO _] & PC). destruct PT as [HY CM].
      destruct (sampled dbg P s _ _ _ _ _ LT PR) as (j & st & J1 & J2 & J3 & SU & M1).
      exists h, cc. rewrite OO. split; [exact TO|]. cbn [pl_mem set_pl_mem]. destruct (zero_spec s _ _ ZE) as (_ & Z2). specialize (Z2 k LT). rewrite Z2, M1.
      assert (R : exists j0, history_yields _ (h ++ [Sampled j0]) (joint_statistics (set_commanded_effort nzero (set_joint_statistics st j))) /\
                   same_measures j0 (set_commanded_effort nzero (set_joint_statistics st j)) /\ (strict -> commanded_effort j0 = cc)).
      { exists j. split; [eapply hy_sample; [exact HY|rewrite <- J3; exact SU]|]. split; [repeat split|]. rewrite J2. exact CM. }
      destruct PC as [-> | ->]; exact R.
    + destruct SS as (W & [OO _] & PC). exact (BUSY W OO PC PT).
    + destruct SS as (W & [OO _] & PC). exact (BUSY W OO PC PT).
    + destruct SS as [(W & [OO _] & PC)|(m & EN & -> & [OO _] & PC)]; [rewrite PC in BUSY |- *; exact (BUSY W OO Logic.I PT)|].
      destruct PT as (j0 & HY & SM & CM). exists h, cc. rewrite OO, PC. split; [exact TO|]. cbn [pl_mem set_pl_mem point].
      destruct (enforce_spec s _ _ EN) as (_ & E2 & _). specialize (E2 k LT). unfold enforceLimits in E2. destruct (getLimits _) as [[lo hi]| | |]; cbn [bind] in E2; try discriminate.
      injection E2 as <-. exists j0. split; [exact HY|]. split; [|exact CM]. destruct SM as (X1 & X2 & X3 & X4). repeat split; assumption.
    + destruct SS as (ts & m & EF & -> & OO & _ & PC). destruct PT as (j0 & HY & SM & CM).
      exists (h ++ [Sampled j0]), (commanded_effort (m_js (pl_mem q) k)). rewrite OO, PC. split; [apply told_cycle with cc; [exact TO|apply sm_sym; exact SM|exact CM]|].
      assert (MA : m_js m k = m_js (pl_mem q) k).
      { unfold propagateJointEffortToActuatorEffort in EF. destruct (over_actuators_local _ all_but_command equiv_cmd (fun t i o => effort_local dbg P t i o) _ _ _ _ _ _ EF) as (A & _). apply A. }
      cbn [pl_mem set_pl_mem set_pl_ts point]. rewrite MA. split; [exact HY|]. split; [reflexivity|]. rewrite sent_snoc. intros Z. destruct (app_cons_not_nil _ _ _ (eq_sym Z)).
    + destruct SS as (-> & [OO _] & PC). destruct PT as (HY & CM & NE). exists h, cc. rewrite OO. split; [exact TO|]. destruct PC as [-> |(t & -> & _)]; cbn [point]; auto.
    + destruct SS as (m & js & acts & FJ & FA & -> & OO & _ & _ & PC). destruct PT as (HY & CM & NE).
      destruct (fine_mech dbg P hw s p0 tick cb pm pj t _ q Qq FQ) as (m4' & js' & acts' & FJ' & FA' & SN & A4 & MJ & _ & F4). rewrite FJ in FJ'. injection FJ' as <- <-. rewrite FA in FA'. injection FA' as <-.
      specialize (MJ k LT). destruct SN as (_ & SN & _). destruct (SN k LT) as (u & sta & _ & N1 & RJ).
      exists (h ++ [Published]), cc. rewrite OO, PC. split.
      * eapply told_stats; [exact TO|exact NE|exact N1|exact HY|]. unfold reports_joint_statistics in RJ. destruct RJ as (_ & _ & _ & _ & _ & _ & _ & RJ). exact RJ.
      * cbn [pl_mem point]. rewrite MJ. cbn [joint_statistics set_joint_statistics commanded_effort]. split; [apply hy_publish; exact HY|exact CM].
    + destruct SS as (PC & _ & D). rewrite PC. cbn [point].
      destruct D as [(-> & [OO _])|(t & msg & _ & _ & _ & _ & -> & OO)].
      * exists h, cc. unfold out_of in OO. rewrite OO. auto.
      * exists h, cc. rewrite OO. split; [apply told_joints; exact TO|exact PT].
Qed.

(** In every interleaving, the entry of a joint in every statistics message is what the statistics rules give for exactly the
    control cycles and statistics messages before it. *)
Theorem C92_message_content : forall (strict : Prop) m0 ls c k o1 t js acts o2, starts p0 m0 -> steps H (quiet m0) ls c -> measured_labels strict ls ->
  (strict -> commands_in_update cb k) -> k < rs_size s -> sy_out (world (mg c)) = o1 ++ OutStats t js acts :: o2 ->
  exists h cc st st', told strict k nzero o1 h cc /\ sent o1 <> [] /\ nth_error js k = Some st /\ history_yields _ h st' /\ shows st st'.
Proof.
  intros strict m0 ls c k o1 t js acts o2 ST S ML CU LT E.
  destruct (fine_steps dbg P L HL urdf config g hw mem0 s p0 HI HU tick cb pm pj (keeps_joints_of cb HC) m0 ls c ST S (outside_of _ _ ML)) as (q & Q & _).
  destruct (conc_told strict m0 ls c q k ST S ML CU Q LT) as (h & cc & TO & _). rewrite E in TO. apply told_message in TO. exact TO.
Qed.
End Whole.

(** Over the reals: the odometer, and the range and maxima of the first message *)
Section Real.
Context {X : Type} {G : Trig R}.
Variables (dbg : bool) (P : parsers R) (L : loader (transmission R)).
Hypothesis HL : forall c t, ld_create L c = Some t -> is_new t.
Notation K := (builtin dbg P).
Variables (urdf : xml -> option (string -> option (ujoint R))) (config : xml) (g : R) (hw : hwif) (mem0 : mem R) (s : rstate) (p0 : plant (transmission R) R).
Hypothesis HI : cm_initXml K dbg L urdf config g hw mem0 = Ok (Some (s, p0)).
Hypothesis HU : forall e, In e (ChildElements config "transmission") -> usable L e.
Variables (tick : X -> Z * X) (cb : ptr -> callback -> X -> mem R -> X * mem R) (pm pj : Z).
Hypothesis HC : keeps_measures cb.
Let H : hooks (sysw (transmission R) R X) := sys_hooks K dbg s tick cb pm pj.

Theorem C92_odometer : forall m0 ls c k o1 t js acts o2, starts p0 m0 -> steps H (quiet m0) ls c -> measured_labels False ls -> k < rs_size s ->
  sy_out (world (mg c)) = o1 ++ OutStats t js acts :: o2 ->
  exists st, nth_error js k = Some st /\
    jo_odometer st = match map position (cycles k o1) with [] => 0%R | p :: l => displacement p l end.
Proof.
  intros m0 ls c k o1 t js acts o2 ST S ML LT E. apply (log_odometer k o1 js).
  exact (C92_message_content dbg P L HL urdf config g hw mem0 s p0 HI HU tick cb pm pj HC False m0 ls c k o1 t js acts o2 ST S ML ltac:(contradiction) LT E).
Qed.
Theorem C92_first_message : forall m0 ls c k o1 t js acts o2, starts p0 m0 -> steps H (quiet m0) ls c -> measured_labels False ls -> k < rs_size s ->
  sy_out (world (mg c)) = o1 ++ OutStats t js acts :: o2 -> unpublished o1 ->
  exists st j0 w, nth_error js k = Some st /\ cycles k o1 = j0 :: w /\
    (forall j, In j (j0 :: w) -> (jo_min_position st <= position j <= jo_max_position st)%R) /\
    (exists j, In j (j0 :: w) /\ jo_min_position st = position j) /\ (exists j, In j (j0 :: w) /\ jo_max_position st = position j) /\
    (forall j, In j w -> (Rabs (velocity j) <= jo_max_abs_velocity st /\ Rabs (measured_effort j) <= jo_max_abs_effort st)%R) /\
    (jo_max_abs_velocity st = 0%R \/ exists j, In j w /\ jo_max_abs_velocity st = Rabs (velocity j)) /\
    (jo_max_abs_effort st = 0%R \/ exists j, In j w /\ jo_max_abs_effort st = Rabs (measured_effort j)).
Proof.
  intros m0 ls c k o1 t js acts o2 ST S ML LT E U. apply (log_first k o1 js); [|exact U].
  exact (C92_message_content dbg P L HL urdf config g hw mem0 s p0 HI HU tick cb pm pj HC False m0 ls c k o1 t js acts o2 ST S ML ltac:(contradiction) LT E).
Qed.
End Real.

(** In binary64: range, maxima and violated-limits flag of a later message *)
Section Binary.
Context {X : Type} {G : Trig B64}.
Variables (dbg : bool) (P : parsers B64) (L : loader (transmission B64)).
Hypothesis HL : forall c t, ld_create L c = Some t -> is_new t.
Notation K := (builtin dbg P).
Variables (urdf : xml -> option (string -> option (ujoint B64))) (config : xml) (g : B64) (hw : hwif) (mem0 : mem B64) (s : rstate) (p0 : plant (transmission B64) B64).
Hypothesis HI : cm_initXml K dbg L urdf config g hw mem0 = Ok (Some (s, p0)).
Hypothesis HU : forall e, In e (ChildElements config "transmission") -> usable L e.
Variables (tick : X -> Z * X) (cb : ptr -> callback -> X -> mem B64 -> X * mem B64) (pm pj : Z).
Hypothesis HC : keeps_measures cb.
Let H : hooks (sysw (transmission B64) B64 X) := sys_hooks K dbg s tick cb pm pj.

Theorem C92_range_covers_cycles : forall m0 ls c k o0 t0 js0 acts0 o1 t js acts o2, starts p0 m0 -> steps H (quiet m0) ls c -> measured_labels False ls -> k < rs_size s ->
  sy_out (world (mg c)) = o0 ++ OutStats t0 js0 acts0 :: o1 ++ OutStats t js acts :: o2 -> unpublished o1 ->
  exists st, nth_error js k = Some st /\
  (forall j, In j (cycles k o1) -> not_nan (position j) -> fle (jo_min_position st) (position j) /\ fle (position j) (jo_max_position st)) /\
  (forall j, In j (cycles k o1) -> not_nan (velocity j) -> fle (Babs (velocity j)) (jo_max_abs_velocity st)) /\
  (forall j, In j (cycles k o1) -> not_nan (measured_effort j) -> fle (Babs (measured_effort j)) (jo_max_abs_effort st)) /\
  ((exists j, In j (cycles k o1) /\ Beqb (jo_max_abs_velocity st) (Babs (velocity j)) = true) \/ Beqb (jo_max_abs_velocity st) f0 = true) /\
  ((exists j, In j (cycles k o1) /\ Beqb (jo_max_abs_effort st) (Babs (measured_effort j)) = true) \/ Beqb (jo_max_abs_effort st) f0 = true).
Proof.
  intros m0 ls c k o0 t0 js0 acts0 o1 t js acts o2 ST S ML LT E U. apply (log_range k o0 t0 js0 acts0 o1 js); [|exact U].
  replace (o0 ++ OutStats t0 js0 acts0 :: o1 ++ OutStats t js acts :: o2) with ((o0 ++ OutStats t0 js0 acts0 :: o1) ++ OutStats t js acts :: o2) in E by (rewrite <- app_assoc; reflexivity).
  exact (C92_message_content dbg P L HL urdf config g hw mem0 s p0 HI HU tick cb pm pj HC False m0 ls c k _ t js acts o2 ST S ML ltac:(contradiction) LT E).
Qed.
Theorem C92_violated_limits : forall m0 ls c k o0 t0 js0 acts0 o1 t js acts o2, starts p0 m0 -> steps H (quiet m0) ls c -> measured_labels True ls ->
  commands_in_update cb k -> k < rs_size s ->
  sy_out (world (mg c)) = o0 ++ OutStats t0 js0 acts0 :: o1 ++ OutStats t js acts :: o2 -> unpublished o1 ->
  exists st, nth_error js k = Some st /\
  (jo_violated_limits st = true <->
   exists c j u, In (c, j) (commands_before (last (map commanded_effort (cycles k o0)) nzero) (cycles k o1)) /\
     js_joint j = Some u /\ uj_safety u <> None /\ uj_limits u <> None /\ flt (Babs (measured_effort j)) (Babs c)).
Proof.
  intros m0 ls c k o0 t0 js0 acts0 o1 t js acts o2 ST S ML CU LT E U. apply (log_violated k o0 t0 js0 acts0 o1 js); [|exact U].
  replace (o0 ++ OutStats t0 js0 acts0 :: o1 ++ OutStats t js acts :: o2) with ((o0 ++ OutStats t0 js0 acts0 :: o1) ++ OutStats t js acts :: o2) in E by (rewrite <- app_assoc; reflexivity).
  exact (C92_message_content dbg P L HL urdf config g hw mem0 s p0 HI HU tick cb pm pj HC True m0 ls c k _ t js acts o2 ST S ML (fun _ => CU) LT E).
Qed.
End Binary.

(** ** Example: the system of C91_ex; the hardware moves the joint by 1 every seven steps, in the middle of cycles *)
Section Ex.
Context {G : Trig B64}.
Notation exb_label := (label (sysw (transmission B64) B64 Z)).
Definition exw_ls : list exb_label :=
  exb_ls ++ List.concat (map (fun z => LEnv (exq_move z) :: times 7 [LRt true true]) [2; 4; 6; 8; 10; 12; 14; 16; 18; 20]%Z).
Definition exw := match runs exb_hooks exw_ls (quiet exb0) with Some c => c | None => quiet exb0 end.
Lemma exw_steps : steps exb_hooks (quiet exb0) exw_ls exw.
Proof.
  unfold exw. assert (Y : match runs exb_hooks exw_ls (quiet exb0) with Some _ => true | None => false end = true) by (vm_compute; reflexivity).
  destruct (runs exb_hooks exw_ls (quiet exb0)) as [c|] eqn:E; [|discriminate]. apply (runs_steps exb_hooks exw_ls _ _ E (quiet exb0) []). constructor.
Qed.
(** twelve cycles (E) and four statistics messages (S); the positions at the cycles; what the messages report *)
Example C92_ex_messages :
  map kind_of (filter (fun o => negb (String.eqb (kind_of o) "J")) (sy_out (world (mg exw)))) =
    ["E"; "E"; "E"; "E"; "S"; "E"; "E"; "S"; "E"; "E"; "E"; "S"; "E"; "E"; "S"; "E"] /\
  map (fun j => B2SF (position j)) (cycles 0 (sy_out (world (mg exw)))) = map (fun z => B2SF (nofZ z : B64)) [0; 0; 0; 0; 1; 2; 3; 5; 6; 7; 9; 10]%Z /\
  map (fun x => map (fun y => (map B2SF [jo_odometer y; jo_min_position y; jo_max_position y], jo_violated_limits y)) (snd (fst x))) (stat_messages (sy_out (world (mg exw))))
   = map (fun l => [(map (fun z => B2SF (nofZ z : B64)) l, true)]) [[0; 0; 0]; [2; 0; 2]; [6; 2; 6]; [9; 6; 9]]%Z.
Proof. vm_compute. repeat split. Qed.
Lemma exw_labels : measured_labels True exw_ls.
Proof.
  unfold measured_labels, exw_ls. apply Forall_app. split.
  - destruct exb_labels as [OL _]. apply Forall_forall. intros l IN.
    assert (E : forallb (fun l : exb_label => match l with LEnv _ => false | _ => true end) exb_ls = true) by (vm_compute; reflexivity).
    rewrite forallb_forall in E. specialize (E l IN). destruct l; try exact Logic.I; discriminate.
  - apply Forall_forall. intros l IN. apply in_concat in IN. destruct IN as (x & IX & IN). apply in_map_iff in IX. destruct IX as (z & <- & _).
    destruct IN as [<-|IN]; [exact (exq_move_outside True z)|]. assert (LR : exists a b, l = LRt a b); [|destruct LR as (a & b & ->); exact Logic.I].
    cbn in IN. repeat (destruct IN as [<-|IN]; [eauto|]). destruct IN.
Qed.
(** every hypothesis of C92_violated_limits (and with it of the others) is met by its second message *)
Example C92_ex : exists o0 t0 js0 acts0 o1 t js acts o2 st,
  sy_out (world (mg exw)) = o0 ++ OutStats t0 js0 acts0 :: o1 ++ OutStats t js acts :: o2 /\ unpublished o1 /\ nth_error js 0 = Some st /\
  (jo_violated_limits st = true <->
   exists c j u, In (c, j) (commands_before (last (map commanded_effort (cycles 0 o0)) nzero) (cycles 0 o1)) /\
     js_joint j = Some u /\ uj_safety u <> None /\ uj_limits u <> None /\ flt (Babs (measured_effort j)) (Babs c)).
Proof.
  assert (Y : match cut (sy_out (world (mg exw))) with Some (_, _, b) => match cut b with Some _ => true | None => false end | None => false end = true) by (vm_compute; reflexivity).
  destruct (cut (sy_out (world (mg exw)))) as [[[o0 [[t0 js0] acts0]] b]|] eqn:C1; [|discriminate].
  destruct (cut b) as [[[o1 [[t js] acts]] o2]|] eqn:C2; [|discriminate]. clear Y.
  apply cut_spec in C1. apply cut_spec in C2. destruct C1 as [C1 _]. destruct C2 as [-> U]. destruct exq_history as [ST _].
  destruct (C92_violated_limits true exb_P exb_L exb_new exb_urdf exb_root nzero ex_hw exb_mem exb_state exb_plant exb_loaded exb_usable exd_tick exd_cb 45%Z 25%Z exq_keeps
    exb0 exw_ls exw 0 o0 t0 js0 acts0 o1 t js acts o2 ST exw_steps exw_labels exq_commands ltac:(repeat constructor) C1 U) as (st & N1 & V).
  exists o0, t0, js0, acts0, o1, t, js, acts, o2, st. auto.
Qed.
End Ex.
