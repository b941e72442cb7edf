(** C91: what a motor is ever commanded when service threads and the hardware run between any two steps of the realtime thread. *)
From Coq Require Import List String Arith Bool ZArith Lia Reals Lra.
From Flocq Require Import Core.Core IEEE754.BinarySingleNaN.
From Verif.Model Require Import Base Num Joint Hardware Xml Transmission Simple Wrist Belt Gripper Scheduler Controller Manager ManagerConc Robot Builtin System.
From Verif.Spec Require Import JointSpec ManagerSpec LocalSpec RobotSpec SystemSpec ConcSpec ConcSystemSpec.
From Verif.Proofs Require Import NumFacts JointProofs Locality OverLocal RobotProofs SystemProofs CycleTotal ConcSystem.
From Verif.Props Require Import JointProps ManagerProps RobotProps SystemProps IndependenceProps MotorProps ConcProps ConcSystemProps.
Import ListNotations.
Local Open Scope nat_scope.

Section General.
Context {T X : Type} {N : Num T} {G : Trig T}.
Variables (dbg : bool) (P : parsers T) (L : loader (transmission T)).
Hypothesis HL : forall c t, ld_create L c = Some t -> is_new t.
Notation K := (builtin dbg P).
Variables (urdf : xml -> option (string -> option (ujoint T))) (config : xml) (g : T) (hw : hwif) (mem0 : mem T) (s : rstate) (p0 : plant (transmission T) T).
Hypothesis HI : cm_initXml K dbg L urdf config g hw mem0 = Ok (Some (s, p0)).
Hypothesis HU : forall e, In e (ChildElements config "transmission") -> usable L e.
Variables (tick : X -> Z * X) (cb : ptr -> callback -> X -> mem T -> X * mem T) (pm pj : Z).
Hypothesis HC : keeps_joints cb.
Let H : hooks (sysw (transmission T) T X) := sys_hooks K dbg s tick cb pm pj.

Lemma conc_sent_by : forall m0 ls c, starts p0 m0 -> steps H (quiet m0) ls c -> outside_labels ls ->
  forall ms ma, In (ms, ma) (sent (sy_out (world (mg c)))) ->
  exists ts ts', all_fit false dbg P ts (rs_in s) (rs_out s) /\ Forall2 same_parameters (pl_ts p0) ts /\ same_joints (pl_mem p0) ms /\
    propagateJointEffortToActuatorEffort K s ts ms = Ok (ts', ma).
Proof.
  intros m0 ls c ST S OL. remember (quiet m0) as c0 eqn:E0. induction S as [c0|c0 ls c1 l c2 S IH E]; intros ms ma IN; subst c0.
  - destruct ST as (_ & _ & EO). cbn [quiet mg] in IN. rewrite EO in IN. destruct IN.
  - apply Forall_app in OL. destruct OL as [OL OL1]. inversion OL1 as [|? ? OL2 _]; subst. specialize (IH eq_refl OL).
    destruct (fine_steps dbg P L HL urdf config g hw mem0 s p0 HI HU tick cb pm pj HC m0 ls c1 ST S OL) as (p & Q & F).
    destruct (fine_bstep dbg P hw s p0 tick cb pm pj HC _ _ _ _ E OL2 Q F) as (p' & Q' & F').
    assert (SAME : sy_out (world (mg c2)) = sy_out (world (mg c1)) -> exists ts ts', all_fit false dbg P ts (rs_in s) (rs_out s) /\ Forall2 same_parameters (pl_ts p0) ts /\
       same_joints (pl_mem p0) ms /\ propagateJointEffortToActuatorEffort K s ts ms = Ok (ts', ma)).
    { intros EO. apply IH. rewrite <- EO. exact IN. }
    assert (CASES : (exists a b, l = LRt a b) \/ forall a b, l <> LRt a b) by (destruct l; [left; eauto|right; congruence..]).
    destruct CASES as [(a & b & ->)|NR].
    2:{ destruct (other_plant K dbg s tick cb pm pj l c1 c2 p' E NR OL2 Q') as (q & m & _ & _ & QO & _). destruct QO as [QO _]. exact (SAME QO). }
    destruct (rt_plant K dbg s tick cb pm pj a b c1 c2 p' E Q') as (q & Qq & SS). assert (q = p) by congruence. subst q. clear Qq.
    cbn [sys_step] in SS. unfold out_of in SS.
    destruct (rt c1) as [|x| |i|i|i| | |t| | |ps|ps|].
    1,2,4,5,11,12,13,14: destruct SS as (_ & [QO _] & _); exact (SAME QO).
    + destruct SS as (ts & m1 & m2 & _ & _ & _ & [QO _] & _). exact (SAME QO).
    + destruct SS as [(_ & [QO _] & _)|(m & _ & _ & [QO _] & _)]; exact (SAME QO).
    + destruct SS as (ts & m & EF & -> & OO & _). rewrite OO, sent_snoc in IN. apply in_app_or in IN. destruct IN as [IN|[IN|[]]]; [exact (IH _ _ IN)|].
      injection IN as <- <-. destruct F as ((FT & _ & SP) & (_ & SJ) & _). exists (pl_ts p), ts. auto.
    + destruct SS as (_ & [QO _] & _). exact (SAME QO).
    + destruct SS as (m & js & acts & FS & FA & -> & OO & _). apply IH. rewrite OO, sent_snoc, app_nil_r in IN. exact IN.
    + destruct SS as (_ & _ & [(_ & [QO _])|(t & msg & _ & _ & _ & FM & -> & OO)]); [exact (SAME QO)|]. apply IH. rewrite OO, sent_snoc, app_nil_r in IN. exact IN.
Qed.

(** In every interleaving, what a transmission that has its actuators for itself sent to them is what it computes, with the
    parameters it was loaded with, from its own joints' efforts; and for each of these joints whose command neither init() code
    nor anybody outside writes, that effort is the result of limit enforcement. *)
Theorem C91_motor_commands : forall m0 ls c ms ma i t0, starts p0 m0 -> steps H (quiet m0) ls c -> outside_labels ls ->
  In (ms, ma) (sent (sy_out (world (mg c)))) -> nth_error (pl_ts p0) i = Some t0 -> exclusive (rs_in s) i ->
  exists t as_ js t1 mt, same_parameters t0 t /\ ready false t /\ fits dbg P t as_ js /\
    nth_error (rs_in s) i = Some as_ /\ nth_error (rs_out s) i = Some js /\
    tr_effort K t js as_ ms = Ok (t1, mt) /\ (forall p, In p as_ -> m_act ma p = m_act mt p) /\
    (forall q, In q js -> inits_leave cb q -> outside_leaves q ls -> exists j, enforced_from j (m_js ms q)) /\
    (forall q, js_joint (m_js ms q) = js_joint (m_js (pl_mem p0) q)).
Proof.
  intros m0 ls c ms ma i t0 ST S OL IN X0 EX.
  destruct (conc_sent_by m0 ls c ST S OL ms ma IN) as (ts & ts' & FT & PA & SJ & EF).
  destruct (one_motor dbg P s p0 ts ts' ms ma i t0 FT PA EF X0 EX) as (t & as_ & js & t1 & mt & SP & RD & FI & NA & NJ & F & MA).
  exists t, as_, js, t1, mt. repeat (split; [assumption|]). split; [|exact SJ].
  intros q I IL OV. destruct (fine_steps dbg P L HL urdf config g hw mem0 s p0 HI HU tick cb pm pj HC m0 ls c ST S OL) as (p & Q & _).
  assert (LT : q < rs_size s) by (eapply (outputs_in_range dbg P L HL); eauto; eapply nth_error_In; eauto).
  destruct (C83_every_sent_effort_enforced K dbg s tick cb pm pj (fun _ => True) q p0 m0 ls c p LT HC IL Logic.I (fun _ _ _ _ _ => Logic.I) ST S OL OV Q ms ma IN) as (j & _ & EN).
  eauto.
Qed.
End General.

Local Open Scope R_scope.
Section Bounds.
Context {X : Type} {G : Trig B64}.
Variables (dbg : bool) (P : parsers B64) (L : loader (transmission B64)).
Hypothesis HL : forall c t, ld_create L c = Some t -> is_new t.
Notation K := (builtin dbg P).
Variables (urdf : xml -> option (string -> option (ujoint B64))) (config : xml) (g : B64) (hw : hwif) (mem0 : mem B64) (s : rstate) (p0 : plant (transmission B64) B64).
Hypothesis HI : cm_initXml K dbg L urdf config g hw mem0 = Ok (Some (s, p0)).
Hypothesis HU : forall e, In e (ChildElements config "transmission") -> usable L e.
Variables (tick : X -> Z * X) (cb : ptr -> callback -> X -> mem B64 -> X * mem B64) (pm pj : Z).
Hypothesis HC : keeps_joints cb.
Let H : hooks (sysw (transmission B64) B64 X) := sys_hooks K dbg s tick cb pm pj.

Lemma conc_limited ms q l : limited p0 q l -> (exists j, enforced_from j (m_js ms q)) -> js_joint (m_js ms q) = js_joint (m_js (pl_mem p0) q) ->
  not_nan (commanded_effort (m_js ms q)) -> within_limit (commanded_effort (m_js ms q)) l.
Proof.
  intros (u & sf & lm & HS & <- & F & NN) (j & j1 & E & EC & EJ) JJ NA.
  assert (JJ' : js_joint j = js_joint j1).
  { unfold enforceLimits in E. destruct (getLimits j) as [[lo hi]| | |]; cbn [bind] in E; try discriminate. injection E as <-. reflexivity. }
  assert (HS' : has_safety j u sf lm) by (unfold has_safety in *; rewrite JJ', <- EJ, JJ; exact HS).
  rewrite EC in *. destruct (C30_effort_within_limit j _ u sf lm HS' NN (enforce_nan _ _ E NA) E) as (A & B & _).
  destruct (within_finite _ _ F A B) as [FC BC]. repeat split; auto.
Qed.

(** Simple transmissions, in every interleaving: unless a controller commanded NaN, the motor is never commanded more than
    limit / reduction, evaluated in floating point. *)
Theorem C91_simple_motor_bound : forall m0 ls c ms ma i x a q l, starts p0 m0 -> steps H (quiet m0) ls c -> outside_labels ls ->
  In (ms, ma) (sent (sy_out (world (mg c)))) ->
  nth_error (pl_ts p0) i = Some (TSimple x) -> exclusive (rs_in s) i -> pointer_at (rs_in s) i 0 a -> pointer_at (rs_out s) i 0 q ->
  inits_leave cb q -> outside_leaves q ls ->
  limited p0 q l -> finite (st_red x) -> B2R (st_red x) <> 0 -> not_nan (commanded_effort (m_js ms q)) ->
  a_enable (m_act ma a) = true /\ a_effort (m_act ma a) = ndiv (commanded_effort (m_js ms q)) (st_red x) /\
  fle (Babs (a_effort (m_act ma a))) (Babs (ndiv l (st_red x))).
Proof.
  intros m0 ls c ms ma i x a q l ST S OL IN X0 EX PA PQ IL OV LM FR NZ NN.
  destruct (C91_motor_commands dbg P L HL urdf config g hw mem0 s p0 HI HU tick cb pm pj HC m0 ls c ms ma i _ ST S OL IN X0 EX)
    as (t & as_ & js & t1 & mt & SP & RD & FI & NA & NJ & F & MA & EN & JJ).
  apply (simple_given dbg P s x t as_ js t1 ms mt ma i a q l); auto.
  apply conc_limited; auto. apply EN; auto. eapply nth_error_In. destruct PQ as (qs & A & B). rewrite NJ in A. injection A as <-. exact B.
Qed.

(** Wrist transmissions, in every interleaving: each of the two motors is never commanded more than
    (|limit0 / reduction0| + |limit1 / reduction1|) / |2 actuator reduction|, evaluated in floating point. *)
Theorem C91_wrist_motor_bound : forall m0 ls c ms ma i x p0' p1' q0 q1 l0 l1 ar0 ar1 jr0 jr1,
  starts p0 m0 -> steps H (quiet m0) ls c -> outside_labels ls -> In (ms, ma) (sent (sy_out (world (mg c)))) ->
  nth_error (pl_ts p0) i = Some (TWrist x) -> wt_ar x = [ar0; ar1] -> wt_jr x = [jr0; jr1] -> exclusive (rs_in s) i ->
  pointer_at (rs_in s) i 0 p0' -> pointer_at (rs_in s) i 1 p1' -> p0' <> p1' -> pointer_at (rs_out s) i 0 q0 -> pointer_at (rs_out s) i 1 q1 ->
  inits_leave cb q0 -> outside_leaves q0 ls -> inits_leave cb q1 -> outside_leaves q1 ls ->
  limited p0 q0 l0 -> limited p0 q1 l1 -> not_nan (commanded_effort (m_js ms q0)) -> not_nan (commanded_effort (m_js ms q1)) ->
  finite jr0 -> finite jr1 -> B2R jr0 <> 0 -> B2R jr1 <> 0 ->
  let sum := nadd (nabs (ndiv l0 jr0)) (nabs (ndiv l1 jr1)) in
  finite (ndiv l0 jr0) -> finite (ndiv l1 jr1) -> finite sum ->
  (let d := nmul ntwo ar0 in finite d -> B2R d <> 0 -> fle (nabs (a_effort (m_act ma p0'))) (nabs (ndiv sum d))) /\
  (let d := nmul ntwo ar1 in finite d -> B2R d <> 0 -> fle (nabs (a_effort (m_act ma p1'))) (nabs (ndiv sum d))).
Proof.
  intros m0 ls c ms ma i x p0' p1' q0 q1 l0 l1 ar0 ar1 jr0 jr1 ST S OL IN X0 EA EJ EX P0 P1 NP Q0 Q1 IL0 OV0 IL1 OV1 LM0 LM1 NN0 NN1 FJ0 FJ1 NZ0 NZ1 sum FD0 FD1 FS.
  destruct (C91_motor_commands dbg P L HL urdf config g hw mem0 s p0 HI HU tick cb pm pj HC m0 ls c ms ma i _ ST S OL IN X0 EX)
    as (t & as_ & js & t1 & mt & SP & RD & FI & NA & NJ & F & MA & EN & JJ).
  apply (wrist_given dbg P s x t as_ js t1 ms mt ma i p0' p1' q0 q1 l0 l1 ar0 ar1 jr0 jr1); auto.
  - apply conc_limited; auto. apply EN; auto. eapply nth_error_In. destruct Q0 as (qs & A & B). rewrite NJ in A. injection A as <-. exact B.
  - apply conc_limited; auto. apply EN; auto. eapply nth_error_In. destruct Q1 as (qs & A & B). rewrite NJ in A. injection A as <-. exact B.
Qed.
End Bounds.

(** ** Example: the system of C74_ex, the controller loaded and started by service threads while the realtime thread runs *)
Section Example.
Context {G : Trig B64}.
Local Open Scope nat_scope.
Local Open Scope string_scope.
Local Open Scope list_scope.
Notation exb_label := (label (sysw (transmission B64) B64 Z)).
Definition exb_ls : list exb_label :=
  times 5 [LRt true true] ++ [LStart 0 false (PCall (CLoad exEnv "a") (fun _ => PEnd))] ++ times 4 [LTh 0] ++ times 4 [LRt true true] ++ times 2 [LTh 0] ++
  times 4 [LRt true true] ++ times 3 [LTh 0] ++ [LStart 1 true (switch_service ["a"] [] STRICT)] ++ times 7 [LTh 1] ++ times 30 [LRt true true].
Definition exb_ran := match runs exb_hooks exb_ls (quiet exb0) with Some c => c | None => quiet exb0 end.
Lemma exb_steps : steps exb_hooks (quiet exb0) exb_ls exb_ran.
Proof.
  unfold exb_ran. assert (Y : match runs exb_hooks exb_ls (quiet exb0) with Some _ => true | None => false end = true) by (vm_compute; reflexivity).
  destruct (runs exb_hooks exb_ls (quiet exb0)) as [c|] eqn:E; [|discriminate]. apply (runs_steps exb_hooks exb_ls _ _ E (quiet exb0) []). constructor.
Qed.
(** the efforts sent to the joint, and those the motor was commanded: 30 / 2 *)
Example C91_ex : map (fun x => map B2SF [commanded_effort (m_js (fst x) 0); a_effort (m_act (snd x) 0)]) (sent (sy_out (world (mg exb_ran))))
  = map (fun z => map B2SF [nofZ (fst z); nofZ (snd z)]) [(0, 0); (0, 0); (30, 15); (30, 15)]%Z.
Proof. vm_compute. reflexivity. Qed.
Lemma exb_labels : outside_labels exb_ls /\ outside_leaves 0 exb_ls.
Proof.
  assert (E : forallb (fun l : exb_label => match l with LEnv _ => false | _ => true end) exb_ls = true) by (vm_compute; reflexivity).
  rewrite forallb_forall in E. split; apply Forall_forall; intros l IN; specialize (E l IN); destruct l; try exact Logic.I; discriminate.
Qed.
Example C91_ex_bound : exists x, st_red x = nofZ 2 /\ forall ms ma, In (ms, ma) (sent (sy_out (world (mg exb_ran)))) -> not_nan (commanded_effort (m_js ms 0)) ->
  fle (Babs (a_effort (m_act ma 0))) (Babs (ndiv (nofZ 30) (st_red x))).
Proof.
  destruct exb_first as (x & X0 & XR). exists x. split; [exact XR|]. intros ms ma IN NN. destruct exb1_history as [ST _]. destruct exb_labels as [OL OV].
  assert (TW : finite (st_red x) /\ B2R (st_red x) <> 0%R) by (rewrite XR; exact two_R). destruct TW as [F2 N2]. clear XR.
  exact (proj2 (proj2 (C91_simple_motor_bound true exb_P exb_L exb_new exb_urdf exb_root nzero ex_hw exb_mem exb_state exb_plant exb_loaded exb_usable exd_tick exd_cb 45%Z 25%Z exb_cb_keeps
    exb0 exb_ls exb_ran ms ma 0 x 0 0 (nofZ 30) ST exb_steps OL IN X0 exb_exclusive exb_act exb_joint (fun _ _ _ _ => eq_refl) OV exb_limited F2 N2 NN))).
Qed.
End Example.
