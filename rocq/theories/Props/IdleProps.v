(** C98: joints no running controller commands; a robot on which nothing runs is limp. *)
From Coq Require Import List String Arith Bool ZArith Lia Reals Lra.
From Flocq Require Import IEEE754.BinarySingleNaN.
From Verif.Model Require Import Base Num Xml Joint Hardware Transmission Simple Wrist Belt Gripper Scheduler Controller Manager Robot Builtin System.
From Verif.Spec Require Import JointSpec TransmissionSpec LocalSpec ManagerSpec RobotSpec RoundTripSpec SystemSpec.
From Verif.Proofs Require Import NumFacts ManagerProofs ManagerInv CycleTotal LoadProofs RobotProofs Locality OverLocal WorldSteps SystemProofs.
From Verif.Props Require Import JointProps ManagerProps RobotProps SystemProps IndependenceProps MotorProps RoundTripProps.
Import ListNotations.
Local Open Scope string_scope.
Local Open Scope list_scope.
Local Open Scope nat_scope.

Section Generic.
Context {Tr T X : Type} {N : Num T} (K : tclass Tr T) (dbg : bool) (s : rstate) (tick : X -> Z * X)
        (cb : ptr -> callback -> X -> mem T -> X * mem T) (pm pj : Z).
Hypothesis HP : (0 < pm)%Z /\ (0 < pj)%Z.
Let H : hooks (sysw Tr T X) := sys_hooks K dbg s tick cb pm pj.

Lemma cb_events_prefix cbs rest : forall l rest', cb_events cbs ++ EvEnforce :: rest = l ++ EvEnforce :: rest' ->
  (forall e, In e l -> exists p k, e = EvCb p k) -> l = cb_events cbs.
Proof.
  induction cbs as [|[p k] cbs IH]; intros l rest' E A; destruct l as [|e l]; cbn in E; auto; try discriminate.
  - destruct (A e (or_introl eq_refl)) as (p & k & ->). discriminate.
  - injection E as <- E. cbn. f_equal. apply (IH _ _ E). intros e I. apply A. right. exact I.
Qed.

(** The command a cycle sends for joint [k] is what limit enforcement makes of zero, unless some running controller's
    starting, stopping or update writes that joint's command. *)
Theorem C98_uncommanded_joint : forall l1 l2 m m' p', reachable H m -> update H l1 l2 m = Ok m' -> sy_plant (world m') = Ok p' ->
  exists ms ma, sent (sy_out (world m')) = sent (sy_out (world m)) ++ [(ms, ma)] /\
    forall k, k < rs_size s ->
      (forall p kd, In p (map e_ptr (loaded m)) -> running m p -> (forall b, kd <> CbInit b) -> leaves_command cb k (p, kd)) ->
      exists j, commanded_effort j = nzero /\ enforceLimits j = Ok (m_js ms k).
Proof.
  intros l1 l2 m m' p' RE E P.
  destruct (C39_one_cycle K dbg s tick cb pm pj l1 l2 m m' p' E P) as (cbs & rest & mz & mb & ms & ma & ts & ts' & TR & Z0 & WR & EN & EF & SE).
  exists ms, ma. split; [exact SE|]. intros k LT LC. exists (m_js mb k). split; [|exact (EN k LT)].
  apply (C39_untouched_joint_zero cb cbs mz mb k (Z0 k LT) WR).
  destruct (C18_restart_when_motors_reenabled H HP l1 l2 m RE) as (m2 & pubs & E2 & TR2 & _).
  fold H in E. rewrite E in E2. injection E2 as <-. fold H in TR. rewrite TR in TR2. apply app_inv_head in TR2. injection TR2 as TR2.
  match type of TR2 with _ = ?r ++ _ => set (rs := r) in TR2 end.
  assert (RS : forall e, In e rs -> exists q kd, e = EvCb q kd /\ In q (filter (runningb m) (exec_order m)) /\ forall b, kd <> CbInit b).
  { unfold rs. destruct (_ && _); [|intros e []]. intros e I. apply in_flat_map in I. destruct I as (q & IQ & [<-|[<-|[]]]); eexists; eexists; (split; [reflexivity|]); (split; [exact IQ|discriminate]). }
  assert (US : forall e, In e (map (fun p => EvCb p CbUpdate) (filter (runningb m) (exec_order m))) -> exists q kd, e = EvCb q kd /\ In q (filter (runningb m) (exec_order m)) /\ forall b, kd <> CbInit b).
  { intros e I. apply in_map_iff in I. destruct I as (q & <- & IQ). eexists; eexists. split; [reflexivity|]. split; [exact IQ|discriminate]. }
  rewrite app_assoc in TR2.
  assert (CE := cb_events_prefix _ _ _ _ TR2 ltac:(intros e I; apply in_app_or in I; destruct I as [I|I]; [destruct (RS e I) as (q & kd & -> & _)|destruct (US e I) as (q & kd & -> & _)]; eauto)).
  apply Forall_forall. intros [q kd] I. assert (IE : In (EvCb q kd) (cb_events cbs)) by (apply in_map_iff; exists (q, kd); auto).
  rewrite <- CE in IE.
  assert (F : In q (filter (runningb m) (exec_order m)) /\ forall b, kd <> CbInit b).
  { apply in_app_or in IE. destruct IE as [J|J]; [destruct (RS _ J) as (q' & kd' & [= <- <-] & A)|destruct (US _ J) as (q' & kd' & [= <- <-] & A)]; exact A. }
  destruct F as [F NI]. apply filter_In in F. destruct F as [F RU].
  apply LC; [|unfold running; unfold runningb, isRunning in RU; destruct (co_state (heap m q)); try discriminate; reflexivity|exact NI].
  destruct (C17_execution_order H HP m RE) as [PM _]. eapply Permutation.Permutation_in; eauto.
Qed.
End Generic.

(** ** What a zero command becomes *)
(** zero lies in the interval limit enforcement allows *)
Definition zero_allowed (j : jointstate B64) : Prop := exists lo hi, getLimits j = Ok (lo, hi) /\ fle lo f0 /\ fle f0 hi.
Lemma limits_same (j j' : jointstate B64) : enforceLimits j = Ok j' -> getLimits j' = getLimits j.
Proof.
  unfold enforceLimits. destruct (getLimits j) as [[lo hi]| | |] eqn:E; cbn [bind]; intros [= <-]. rewrite <- E. reflexivity.
Qed.
Theorem C98_zero_stays_zero : forall j j' : jointstate B64, commanded_effort j = f0 -> enforceLimits j = Ok j' -> zero_allowed j' -> commanded_effort j' = f0.
Proof.
  intros j j' Z E (lo & hi & G & A & B). rewrite (limits_same _ _ E) in G. rewrite <- Z in A, B. rewrite <- Z.
  exact (C34_transparent j j' lo hi G A B E).
Qed.
(** joints without a safety controller or without limits allow zero *)
Theorem C98_zero_allowed_without_limits : forall (j : jointstate B64) u, js_joint j = Some u -> (uj_safety u = None \/ uj_limits u = None) -> zero_allowed j.
Proof.
  intros j u HU HN. exists (Bopp b64_max), b64_max. split; [|split; vm_compute; reflexivity].
  unfold getLimits. rewrite HU. destruct (uj_safety u); [destruct HN as [HN|HN]; [discriminate|rewrite HN]|]; reflexivity.
Qed.

Section Motors.
Context {X : Type} {G : Trig B64}.
Variables (dbg : bool) (P : parsers B64) (L : loader (transmission B64)).
Hypothesis HL : forall c t, ld_create L c = Some t -> is_new t.
Notation K := (builtin dbg P).
Variables (urdf : xml -> option (string -> option (ujoint B64))) (config : xml) (g : B64) (hw : hwif) (mem0 : mem B64) (s : rstate) (p0 : plant (transmission B64) B64).
Hypothesis HI : cm_initXml K dbg L urdf config g hw mem0 = Ok (Some (s, p0)).
Hypothesis HU : forall e, In e (ChildElements config "transmission") -> usable L e.
Variables (tick : X -> Z * X) (cb : ptr -> callback -> X -> mem B64 -> X * mem B64) (pm pj : Z).
Hypothesis HC : keeps_joints cb.
Hypothesis HP : (0 < pm)%Z /\ (0 < pj)%Z.
Let H : hooks (sysw (transmission B64) B64 X) := sys_hooks K dbg s tick cb pm pj.

(** no running controller commands joint [q] *)
Definition uncommanded (m : mgr (sysw (transmission B64) B64 X)) (q : nat) : Prop :=
  forall p kd, In p (map e_ptr (loaded m)) -> running m p -> (forall b, kd <> CbInit b) -> leaves_command cb q (p, kd).
(** the number compares equal to zero *)
Definition no_effort (x : B64) : Prop := Beqb x f0 = true.
Lemma no_effort_zero x : no_effort x <-> exists sg, x = B754_zero sg.
Proof.
  split; [|intros [sg ->]; reflexivity]. unfold no_effort. destruct x as [sx|sx| |sx mx ex Bx]; intros E; try (destruct sx); try discriminate; eauto.
Qed.
Lemma div_zero (z r : B64) : no_effort z -> finite r -> B2R r <> 0%R -> no_effort (Bdiv mode_NE z r).
Proof.
  intros Z FR NZ. apply no_effort_zero in Z. destruct Z as [sz ->].
  destruct r as [sr|sr| |sr mr er Br]; try discriminate; [exfalso; apply NZ; reflexivity|]. reflexivity.
Qed.

Lemma cycle_facts m0 m l1 l2 m' p' ms ma : starts p0 m0 -> history H m0 m ->
  update H l1 l2 m = Ok m' -> sy_plant (world m') = Ok p' -> sent (sy_out (world m')) = sent (sy_out (world m)) ++ [(ms, ma)] ->
  (history H m0 m' /\ In (ms, ma) (sent (sy_out (world m')))) /\
  forall q, q < rs_size s -> uncommanded m q -> zero_allowed (m_js ms q) -> commanded_effort (m_js ms q) = f0.
Proof.
  intros ST HH E PP SE. destruct (fine_history dbg P L HL urdf config g hw mem0 s p0 HI HU tick cb pm pj HC m0 m ST HH) as [RE _].
  split.
  - split; [|rewrite SE; apply in_or_app; right; left; reflexivity]. eapply hist_step with (o := OpUpdate l1 l2); [exact HH|exact I|].
    replace (Ok (Returned true, m')) with (bind (update H l1 l2 m) (fun m' => Ok (Returned true, m'))) by (rewrite E; reflexivity). constructor.
  - intros q LT UN ZA. destruct (C98_uncommanded_joint K dbg s tick cb pm pj HP l1 l2 m m' p' RE E PP) as (ms' & ma' & SE' & ALL).
    rewrite SE in SE'. apply app_inv_head in SE'. injection SE' as <- <-. destruct (ALL q LT UN) as (j & Z & EN).
    exact (C98_zero_stays_zero j _ Z EN ZA).
Qed.

(** A motor behind a simple transmission gets no effort while no running controller commands the joint and zero is within
    the joint's limits: in every history, for the cycle just completed. *)
Theorem C98_simple_motor_limp : forall m0 m l1 l2 m' p' ms ma i x a q, starts p0 m0 -> history H m0 m ->
  update H l1 l2 m = Ok m' -> sy_plant (world m') = Ok p' -> sent (sy_out (world m')) = sent (sy_out (world m)) ++ [(ms, ma)] ->
  nth_error (pl_ts p0) i = Some (TSimple x) -> exclusive (rs_in s) i -> pointer_at (rs_in s) i 0 a -> pointer_at (rs_out s) i 0 q ->
  finite (st_red x) -> B2R (st_red x) <> 0%R -> uncommanded m q -> zero_allowed (m_js ms q) ->
  a_enable (m_act ma a) = true /\ no_effort (a_effort (m_act ma a)).
Proof.
  intros m0 m l1 l2 m' p' ms ma i x a q ST HH E PP SE X0 EX PA PQ FR NZ UN ZA.
  destruct (cycle_facts m0 m l1 l2 m' p' ms ma ST HH E PP SE) as [ST' ZC].
  destruct ST' as [HH' IN].
  destruct (C74_motor_commands dbg P L HL urdf config g hw mem0 s p0 HI HU tick cb pm pj HC m0 m' ms ma i _ ST HH' IN X0 EX)
    as (t & as_ & js & t1 & mt & SP & RD & FI & NA & NJ & F & MA & EN & JJ).
  assert (IQ : In q js) by (destruct PQ as (qs & A & B); rewrite NJ in A; injection A as <-; eapply nth_error_In; eauto).
  assert (Z : commanded_effort (m_js ms q) = f0) by (apply ZC; [eapply (outputs_in_range dbg P L HL urdf config g hw mem0 s p0 HI HU); [eapply nth_error_In; exact NJ|exact IQ]|exact UN|exact ZA]).
  destruct (simple_given dbg P s x t as_ js t1 ms mt ma i a q f0 SP RD FI NA NJ F MA PA PQ FR NZ) as (A & B & _).
  { rewrite Z. repeat split; auto; lra. }
  split; [exact A|]. rewrite B, Z. apply div_zero; auto. reflexivity.
Qed.

(** ... and so do both motors of a wrist while neither of its joints is commanded. *)
Lemma abs_le_zero (x : B64) : fle (Babs x) f0 -> no_effort x.
Proof. intros A. destruct x as [sx|sx| |sx mx ex Bx]; try discriminate; reflexivity. Qed.
Theorem C98_wrist_motors_limp : forall m0 m l1 l2 m' p' ms ma i x a0 a1 q0 q1 ar0 ar1 jr0 jr1, starts p0 m0 -> history H m0 m ->
  update H l1 l2 m = Ok m' -> sy_plant (world m') = Ok p' -> sent (sy_out (world m')) = sent (sy_out (world m)) ++ [(ms, ma)] ->
  nth_error (pl_ts p0) i = Some (TWrist x) -> wt_ar x = [ar0; ar1] -> wt_jr x = [jr0; jr1] -> exclusive (rs_in s) i ->
  pointer_at (rs_in s) i 0 a0 -> pointer_at (rs_in s) i 1 a1 -> a0 <> a1 -> pointer_at (rs_out s) i 0 q0 -> pointer_at (rs_out s) i 1 q1 ->
  finite jr0 -> finite jr1 -> B2R jr0 <> 0%R -> B2R jr1 <> 0%R ->
  (let d := nmul ntwo ar0 in finite d /\ B2R d <> 0%R) -> (let d := nmul ntwo ar1 in finite d /\ B2R d <> 0%R) ->
  uncommanded m q0 -> uncommanded m q1 -> zero_allowed (m_js ms q0) -> zero_allowed (m_js ms q1) ->
  no_effort (a_effort (m_act ma a0)) /\ no_effort (a_effort (m_act ma a1)).
Proof.
  intros m0 m l1 l2 m' p' ms ma i x a0 a1 q0 q1 ar0 ar1 jr0 jr1 ST HH E PP SE X0 EA EJ EX P0 P1 NP Q0 Q1 FJ0 FJ1 NZ0 NZ1 [FD0 ND0] [FD1 ND1] U0 U1 A0 A1.
  destruct (cycle_facts m0 m l1 l2 m' p' ms ma ST HH E PP SE) as [[HH' IN] ZC].
  destruct (C74_motor_commands dbg P L HL urdf config g hw mem0 s p0 HI HU tick cb pm pj HC m0 m' ms ma i _ ST HH' IN X0 EX)
    as (t & as_ & js & t1 & mt & SP & RD & FI & NA & NJ & F & MA & EN & JJ).
  assert (RNG : forall k q, pointer_at (rs_out s) i k q -> q < rs_size s).
  { intros k q (qs & A & B). rewrite NJ in A. injection A as <-.
    eapply (outputs_in_range dbg P L HL urdf config g hw mem0 s p0 HI HU); eapply nth_error_In; [exact NJ|exact B]. }
  assert (Z0 : commanded_effort (m_js ms q0) = f0) by (apply ZC; eauto).
  assert (Z1 : commanded_effort (m_js ms q1) = f0) by (apply ZC; eauto).
  assert (D : forall r : B64, finite r -> B2R r <> 0%R -> exists sg, ndiv f0 r = B754_zero sg).
  { intros r FR NR. apply no_effort_zero. apply (div_zero f0 r); auto. reflexivity. }
  destruct (D jr0 FJ0 NZ0) as [s0 D0], (D jr1 FJ1 NZ1) as [s1 D1].
  destruct (wrist_given dbg P s x t as_ js t1 ms mt ma i a0 a1 q0 q1 f0 f0 ar0 ar1 jr0 jr1 SP RD FI NA NJ F MA EA EJ P0 P1 NP Q0 Q1) as [B0 B1];
    try (rewrite ?Z0, ?Z1; repeat split; auto; lra); auto.
  1,2: rewrite ?D0, ?D1; reflexivity.
  { rewrite D0, D1. destruct s0, s1; reflexivity. }
  assert (NS : no_effort (nadd (nabs (ndiv f0 jr0)) (nabs (ndiv f0 jr1)))) by (rewrite D0, D1; destruct s0, s1; reflexivity).
  assert (W : forall d : B64, finite d -> B2R d <> 0%R -> forall y, fle (nabs y) (nabs (ndiv (nadd (nabs (ndiv f0 jr0)) (nabs (ndiv f0 jr1))) d)) -> no_effort y).
  { intros d FD NDd y LE. apply abs_le_zero. clear - NS FD NDd LE. set (sum := nadd _ _) in *. clearbody sum.
    pose proof (div_zero sum d NS FD NDd) as DZ. apply no_effort_zero in DZ. destruct DZ as [sz DZ]. cbn [ndiv num_b64] in LE. rewrite DZ in LE. exact LE. }
  split; [exact (W _ FD0 ND0 _ (B0 FD0 ND0))|exact (W _ FD1 ND1 _ (B1 FD1 ND1))].
Qed.
(** ... and the motor of a gripper, whatever its position: the command is zero or, where the arithmetic of the linkage gives
    none, not a number. *)
Lemma zero_or_nan_mul (z r : B64) : is_nan z = true \/ no_effort z -> is_nan (Bmult mode_NE z r) = true \/ no_effort (Bmult mode_NE z r).
Proof.
  intros [Z|Z]; [left; destruct z as [| | |]; try discriminate; destruct r; reflexivity|].
  apply no_effort_zero in Z. destruct Z as [sz ->]. destruct r; try (left; reflexivity); right; reflexivity.
Qed.
Lemma zero_or_nan_div (z r : B64) : is_nan z = true \/ no_effort z -> is_nan (Bdiv mode_NE z r) = true \/ no_effort (Bdiv mode_NE z r).
Proof.
  intros [Z|Z]; [left; destruct z as [| | |]; try discriminate; destruct r; reflexivity|].
  apply no_effort_zero in Z. destruct Z as [sz ->]. destruct r; try (left; reflexivity); right; reflexivity.
Qed.
Lemma gripper_given y as_ js (ms mt : mem B64) a q : gripper_propagateEffort dbg y js as_ ms = Ok mt -> nth_error as_ 0 = Some a -> nth_error js 0 = Some q ->
  commanded_effort (m_js ms q) = f0 -> a_enable (m_act mt a) = true /\ (is_nan (a_effort (m_act mt a)) = true \/ no_effort (a_effort (m_act mt a))).
Proof.
  intros F NA NJ Z. unfold gripper_propagateEffort in F. destruct (cassert _ _) as [[]| | |]; cbn [bind] in F; try discriminate.
  destruct (cassert _ _) as [[]| | |]; cbn [bind] in F; try discriminate.
  unfold vget in F. rewrite NA, NJ in F. cbn [bind] in F. cbv zeta in F.
  destruct (inverseGapStates y _) as [[[i1 i2] i3] d]. injection F as <-.
  cbn [act_upd m_act]. unfold Transmission.upd. rewrite Nat.eqb_refl. cbn [a_enable a_effort set_a_effort set_a_enable]. split; [reflexivity|].
  rewrite Z. apply zero_or_nan_mul, zero_or_nan_mul, zero_or_nan_div. right. reflexivity.
Qed.
Theorem C98_gripper_motor_limp : forall m0 m l1 l2 m' p' ms ma i x a q, starts p0 m0 -> history H m0 m ->
  update H l1 l2 m = Ok m' -> sy_plant (world m') = Ok p' -> sent (sy_out (world m')) = sent (sy_out (world m)) ++ [(ms, ma)] ->
  nth_error (pl_ts p0) i = Some (TGripper x) -> exclusive (rs_in s) i -> pointer_at (rs_in s) i 0 a -> pointer_at (rs_out s) i 0 q ->
  uncommanded m q -> zero_allowed (m_js ms q) -> is_nan (a_effort (m_act ma a)) = false ->
  a_enable (m_act ma a) = true /\ no_effort (a_effort (m_act ma a)).
Proof.
  intros m0 m l1 l2 m' p' ms ma i x a q ST HH E PP SE X0 EX PA PQ UN ZA NN.
  destruct (cycle_facts m0 m l1 l2 m' p' ms ma ST HH E PP SE) as [[HH' IN] ZC].
  destruct (C74_motor_commands dbg P L HL urdf config g hw mem0 s p0 HI HU tick cb pm pj HC m0 m' ms ma i _ ST HH' IN X0 EX)
    as (t & as_ & js & t1 & mt & SP & RD & FI & NA & NJ & F & MA & EN & JJ).
  destruct PA as (ps & PA1 & PA2), PQ as (qs & PQ1 & PQ2). rewrite NA in PA1. injection PA1 as <-. rewrite NJ in PQ1. injection PQ1 as <-.
  assert (Z : commanded_effort (m_js ms q) = f0) by (apply ZC; [eapply (outputs_in_range dbg P L HL urdf config g hw mem0 s p0 HI HU); [eapply nth_error_In; exact NJ|eapply nth_error_In; exact PQ2]|exact UN|exact ZA]).
  destruct t as [y|y|y|y]; cbn [same_parameters] in SP; try contradiction.
  cbn [builtin tr_effort] in F. destruct (gripper_propagateEffort dbg y js as_ ms) as [mt'| | |] eqn:GE; cbn [bind keep] in F; try discriminate. injection F as _ <-.
  destruct (gripper_given y as_ js ms mt' a q GE PA2 PQ2 Z) as [A B].
  rewrite (MA a) in NN |- * by (eapply nth_error_In; exact PA2). split; [exact A|]. destruct B as [B|B]; [congruence|exact B].
Qed.

(** The motor of a belt gets nothing but the transmission's own damping force. *)
Theorem C98_belt_motor_only_damped : forall m0 m l1 l2 m' p' ms ma i x a q, starts p0 m0 -> history H m0 m ->
  update H l1 l2 m = Ok m' -> sy_plant (world m') = Ok p' -> sent (sy_out (world m')) = sent (sy_out (world m)) ++ [(ms, ma)] ->
  nth_error (pl_ts p0) i = Some (TBelt x) -> exclusive (rs_in s) i -> pointer_at (rs_in s) i 0 a -> pointer_at (rs_out s) i 0 q ->
  uncommanded m q -> zero_allowed (m_js ms q) ->
  exists y : belt B64, same_parameters (TBelt x) (TBelt y) /\ a_effort (m_act ma a) = ndiv (nadd f0 (belt_damping y)) (bt_red y).
Proof.
  intros m0 m l1 l2 m' p' ms ma i x a q ST HH E PP SE X0 EX PA PQ UN ZA.
  destruct (cycle_facts m0 m l1 l2 m' p' ms ma ST HH E PP SE) as [[HH' IN] ZC].
  destruct (C74_motor_commands dbg P L HL urdf config g hw mem0 s p0 HI HU tick cb pm pj HC m0 m' ms ma i _ ST HH' IN X0 EX)
    as (t & as_ & js & t1 & mt & SP & RD & FI & NA & NJ & F & MA & EN & JJ).
  destruct PA as (ps & PA1 & PA2), PQ as (qs & PQ1 & PQ2). rewrite NA in PA1. injection PA1 as <-. rewrite NJ in PQ1. injection PQ1 as <-.
  assert (Z : commanded_effort (m_js ms q) = f0) by (apply ZC; [eapply (outputs_in_range dbg P L HL urdf config g hw mem0 s p0 HI HU); [eapply nth_error_In; exact NJ|eapply nth_error_In; exact PQ2]|exact UN|exact ZA]).
  destruct t as [y|y|y|y]; try (cbn [same_parameters] in SP; contradiction).
  exists y. split; [exact SP|]. rewrite (MA a) by (eapply nth_error_In; exact PA2).
  cbn [builtin tr_effort] in F. destruct (belt_propagateEffort dbg y js as_ ms) as [[y' mt']| | |] eqn:BE; cbn [bind] in F; try discriminate. injection F as _ <-.
  unfold belt_propagateEffort in BE. destruct (belt_sizes dbg as_ js) as [[]| | |]; cbn [bind] in BE; try discriminate.
  unfold vget in BE. rewrite PA2, PQ2 in BE. cbn [bind] in BE. injection BE as _ <-.
  cbn [act_upd m_act]. unfold Transmission.upd. rewrite Nat.eqb_refl. cbn [a_effort set_a_effort]. rewrite Z. reflexivity.
Qed.
End Motors.

(** Where no controller is running, no joint is commanded. *)
Theorem C98_idle_uncommanded : forall {X : Type} (cb : ptr -> callback -> X -> mem B64 -> X * mem B64) (m : mgr (sysw (transmission B64) B64 X)) q,
  existsb (fun e => runningb m (e_ptr e)) (loaded m) = false -> uncommanded cb m q.
Proof.
  intros X cb m q NB p kd IP RU _. exfalso. apply in_map_iff in IP. destruct IP as (e & <- & IE).
  assert (Q : existsb (fun e => runningb m (e_ptr e)) (loaded m) = true).
  { apply existsb_exists. exists e. split; [exact IE|]. unfold runningb. rewrite RU. reflexivity. }
  rewrite Q in NB. discriminate.
Qed.

Lemma last_map_snoc : forall {A B : Type} (f : A -> B) l x d, last (map f (l ++ [x])) d = f x.
Proof. intros A B f l x d. rewrite map_app. apply last_last. Qed.

(** ** Example: the robot of C74; its only controller is started, commands 100, and is stopped again *)
Section Example.
Context {G : Trig B64}.
Definition exi_ops : list (op (W:=sysw (transmission B64) B64 Z)) :=
  [OpLoad exEnv "a"; OpUpdate true true; OpSwitch ["a"] [] STRICT; OpUpdate true true; OpUpdate true true; OpSwitch [] ["a"] STRICT; OpUpdate true true].
Definition exi1 : mgr (sysw (transmission B64) B64 Z) := match exec exb_hooks exi_ops exb0 with Some m => m | None => exb0 end.
Lemma exi1_history : starts exb_plant exb0 /\ history exb_hooks exb0 exi1.
Proof.
  split; [repeat split|]. apply exec_history with exi_ops exb0; [repeat constructor|constructor|].
  unfold exi1. assert (Y : match exec exb_hooks exi_ops exb0 with Some _ => true | None => false end = true) by (vm_compute; reflexivity).
  destruct (exec exb_hooks exi_ops exb0); [reflexivity|discriminate].
Qed.
Definition exi_next : res (mgr (sysw (transmission B64) B64 Z)) := update exb_hooks true true exi1.
Definition exi2 : mgr (sysw (transmission B64) B64 Z) := match exi_next with Ok m => m | _ => exi1 end.
(** the joint's commands as enforced and the motor's, cycle by cycle *)
Theorem C98_ex : map (fun x => map B2SF [commanded_effort (m_js (fst x) 0); a_effort (m_act (snd x) 0)]) (sent (sy_out (world exi2)))
  = map (fun z => map B2SF [nofZ (fst z); nofZ (snd z)]) [(0, 0); (0, 0); (30, 15); (30, 15); (0, 0)]%Z.
Proof. vm_compute. reflexivity. Qed.
Definition ex_conclusion (m1 m2 : mgr (sysw (transmission B64) B64 Z)) : Prop :=
  exists p' ms ma, update exb_hooks true true m1 = Ok m2 /\ sy_plant (world m2) = Ok p' /\
  sent (sy_out (world m2)) = sent (sy_out (world m1)) ++ [(ms, ma)] /\
  uncommanded exd_cb m1 0 /\ zero_allowed (m_js ms 0) /\ loaded m1 <> [].
Lemma ex_generic : forall (m1 m2 : mgr (sysw (transmission B64) B64 Z)) r, update exb_hooks true true m1 = r -> m2 = match r with Ok m => m | _ => m1 end ->
  match r with Ok _ => true | _ => false end = true ->
  match sy_plant (world m2) with Ok _ => true | _ => false end = true ->
  existsb (fun e => runningb m1 (e_ptr e)) (loaded m1) = false ->
  Nat.eqb (List.length (loaded m1)) 1 = true ->
  match last (map (fun x => getLimits (m_js (fst x) 0)) (sent (sy_out (world m2)))) UB with
               | Ok (lo, hi) => Bleb lo f0 && Bleb f0 hi | _ => false end = true -> ex_conclusion m1 m2.
Proof.
  intros m1 m2 r E M Y1 Y2 Y3 Y4 Y5. destruct r as [m2'| | |]; try discriminate. subst m2'.
  destruct (sy_plant (world m2)) as [p'| | |] eqn:PP; try discriminate.
  destruct (C39_one_cycle (builtin true exb_P) true exb_state exd_tick exd_cb 45%Z 25%Z true true m1 m2 p' E PP) as (cbs & rest & mz & mb & ms & ma & ts & ts' & _ & _ & _ & _ & _ & SE).
  exists p', ms, ma. split; [exact E|]. split; [exact PP|]. split; [exact SE|]. split; [|split].
  - exact (C98_idle_uncommanded exd_cb m1 0 Y3).
  - rewrite SE, last_map_snoc in Y5. unfold fst in Y5. unfold zero_allowed.
    destruct (getLimits (m_js ms 0)) as [[lo hi]| | |]; try discriminate. apply andb_prop in Y5. exists lo, hi. split; [reflexivity|exact Y5].
  - intros Q. rewrite Q in Y4. discriminate.
Qed.
Theorem C98_ex_hypotheses : ex_conclusion exi1 exi2.
Proof.
  apply ex_generic with exi_next.
  - unfold exi_next. reflexivity.
  - unfold exi2. reflexivity.
  - vm_compute. reflexivity.
  - vm_compute. reflexivity.
  - vm_compute. reflexivity.
  - vm_compute. reflexivity.
  - vm_compute. reflexivity.
Qed.
End Example.

(** ** Example: a robot with a gripper and a belt and no controller; the mathematics library is a stand-in *)
Section Example2.
Definition exg_trig : Trig B64 := {| npi := nofZ 3; nfmod := fun a _ => a; nsqrt := Bsqrt mode_NE; nsin := fun _ => nhalf; ncos := fun _ => nzero; nasin := fun _ => nofZ 1; nacos := fun _ => nofZ 1 |}.
#[local] Existing Instance exg_trig.
Definition exg_root : xml := Elem "robot" [] None
  [ex_pkg "PR2GripperTransmission" "gripper"
     [Elem "actuator" [("name", "m0")] None [];
      Elem "gap_joint" [("name", "gap"); ("mechanical_reduction", "2"); ("screw_reduction", "2"); ("gear_ratio", "2"); ("theta0", "2"); ("phi0", "2");
                        ("t0", "2"); ("L0", "2"); ("h", "2"); ("a", "2"); ("b", "2"); ("r", "2")] None [];
      Elem "passive_joint" [("name", "finger")] None [];
      Elem "simulated_actuated_joint" [("name", "sim"); ("simulated_reduction", "2"); ("passive_actuated_joint", "pas")] None []];
   ex_pkg "PR2BeltCompensatorTransmission" "belt"
     [Elem "joint" [("name", "elbow")] None []; Elem "actuator" [("name", "m1")] None []; Elem "mechanicalReduction" [] (Some "2") [];
      Elem "compensator" [("k_belt", "2"); ("mass_motor", "2"); ("kd_motor", "2"); ("lambda_motor", "2"); ("lambda_joint", "2"); ("lambda_combined", "2")] None []]].
Definition exg_urdf (_ : xml) : option (string -> option (ujoint B64)) :=
  Some (fun n => if existsb (String.eqb n) ["gap"; "finger"; "elbow"; "sim"; "pas"] then Some (mkUjoint n JREVOLUTE None None None) else None).
Definition exg_plant : plant (transmission B64) B64 :=
  match cm_initXml (builtin true exb_P) true exb_L exg_urdf exg_root nzero ex_hw exb_mem with Ok (Some (_, p)) => p | _ => mkPlant [] exb_mem [] (mkJmsg [] [] [] []) [] [] end.
Definition exg_state : rstate := mkRstate 5 [[0]; [1]] [[0; 1; 2; 3]; [4]] [("elbow", 4); ("pas", 3); ("sim", 2); ("finger", 1); ("gap", 0)].
Definition exg_hooks : hooks (sysw (transmission B64) B64 Z) := sys_hooks (builtin true exb_P) true exg_state exd_tick exd_cb 45%Z 25%Z.
Definition exg0 : mgr (sysw (transmission B64) B64 Z) :=
  mkMgr (fun _ => mkObj "" CONSTRUCTED no_deps new_stats) 0 (fun _ => []) (fun _ => []) false None [] [] false true [] 0%Z 0%Z (mkSysw (Ok exg_plant) 3%Z []) [].
Lemma exg_loaded : cm_initXml (builtin true exb_P) true exb_L exg_urdf exg_root nzero ex_hw exb_mem = Ok (Some (exg_state, exg_plant)).
Proof.
  assert (Y : match cm_initXml (builtin true exb_P) true exb_L exg_urdf exg_root nzero ex_hw exb_mem with Ok (Some (st, _)) => match st with mkRstate a b c d => (a, b, c, d) end | _ => (0, [], [], []) end
    = (5, [[0]; [1]], [[0; 1; 2; 3]; [4]], [("elbow", 4); ("pas", 3); ("sim", 2); ("finger", 1); ("gap", 0)])) by (vm_compute; reflexivity).
  revert Y. unfold exg_plant. generalize (cm_initXml (builtin true exb_P) true exb_L exg_urdf exg_root nzero ex_hw exb_mem). clear. intros r Y. destruct r as [[[[a b c d] p]|]| | |]; try discriminate. injection Y as -> -> -> ->. reflexivity.
Qed.
Lemma exg_usable : forall e, In e (ChildElements exg_root "transmission") -> usable exb_L e.
Proof.
  intros e I ty c t D C CR. cbn in I. destruct I as [<-|[<-|[]]]; destruct t; cbn; auto; exfalso.
  all: inversion D as [ty' A|x0 ty' A B]; cbn in A; try discriminate; subst ty'; injection A as <-.
  all: destruct C as [AV'|pre c0 post AV' E1 E2 E3|AV' X]; [vm_compute in CR; discriminate CR|vm_compute in AV'; discriminate AV'|vm_compute in AV'; discriminate AV'].
Qed.
Lemma exg_kinds : exists xg xb, nth_error (pl_ts exg_plant) 0 = Some (TGripper xg) /\ nth_error (pl_ts exg_plant) 1 = Some (TBelt xb).
Proof.
  assert (Y : match pl_ts exg_plant with TGripper _ :: TBelt _ :: _ => true | _ => false end = true) by (vm_compute; reflexivity).
  revert Y. generalize (pl_ts exg_plant). clear. intros l Y. destruct l as [|[x|x|x|x] [|[y|y|y|y] l]]; try discriminate. eexists _, _. split; reflexivity.
Qed.
Lemma exg_exclusive : forall i, i < 2 -> exclusive (rs_in exg_state) i.
Proof.
  intros i LT j k k' a (ps & A & B) (ps' & A' & B'). cbn [rs_in exg_state] in A, A'.
  destruct i as [|[|i]]; [| |lia]; cbn in A; injection A as <-; destruct k as [|k]; try (destruct k; discriminate); cbn in B; injection B as <-;
  (destruct j as [|[|j]]; cbn in A'; [injection A' as <-|injection A' as <-|destruct j; discriminate]); auto; exfalso; destruct k' as [|[|k']]; discriminate.
Qed.
Lemma zero_allowed_test (j : jointstate B64) : negb (match getLimits j with Ok (lo, hi) => Bleb lo f0 && Bleb f0 hi | _ => false end) = false -> zero_allowed j.
Proof.
  unfold zero_allowed. destruct (getLimits j) as [[lo hi]| | |]; intros A; try discriminate A. apply negb_false_iff, andb_prop in A. exists lo, hi. split; [reflexivity|exact A].
Qed.
Lemma exg_generic : forall m0 r m', starts exg_plant m0 -> loaded m0 = [] -> update exg_hooks true true m0 = r -> match r with Ok m => m | _ => m0 end = m' ->
  match r with Ok _ => true | _ => false end = true -> match sy_plant (world m') with Ok _ => true | _ => false end = true ->
  match last (map (fun x => is_nan (a_effort (m_act (snd x) 0)) || negb (match getLimits (m_js (fst x) 0) with Ok (lo, hi) => Bleb lo f0 && Bleb f0 hi | _ => false end)
     || negb (match getLimits (m_js (fst x) 4) with Ok (lo, hi) => Bleb lo f0 && Bleb f0 hi | _ => false end))%bool (sent (sy_out (world m')))) true with b => b end = false ->
  exists p' ms ma, sy_plant (world m') = Ok p' /\ sent (sy_out (world m')) = [(ms, ma)] /\ no_effort (a_effort (m_act ma 0)) /\
    exists y : belt B64, a_effort (m_act ma 1) = ndiv (nadd f0 (belt_damping y)) (bt_red y).
Proof.
  intros m0 r m' ST L0 E M Y1 Y2 Y3. destruct r as [m1| | |]; try discriminate Y1. subst m1.
  destruct (sy_plant (world m')) as [p'| | |] eqn:PP; try discriminate Y2.
  destruct (C39_one_cycle (builtin true exb_P) true exg_state exd_tick exd_cb 45%Z 25%Z true true m0 m' p' E PP) as (cbs & rest & mz & mb & ms & ma & ts & ts' & _ & _ & _ & _ & _ & SE).
  exists p', ms, ma. split; [reflexivity|]. split; [rewrite SE; destruct ST as (_ & _ & ->); reflexivity|].
  rewrite SE, last_map_snoc in Y3. unfold fst, snd in Y3. apply orb_false_elim in Y3. destruct Y3 as [Y3 Y5]. apply orb_false_elim in Y3. destruct Y3 as [Y3 Y4].
  assert (Z0 : zero_allowed (m_js ms 0)).
  { exact (zero_allowed_test _ Y4). }
  assert (Z4 : zero_allowed (m_js ms 4)).
  { exact (zero_allowed_test _ Y5). }
  assert (UN : forall q, uncommanded exd_cb m0 q) by (intros q; apply C98_idle_uncommanded; rewrite L0; reflexivity).
  pose proof exg_exclusive as EX.
  destruct exg_kinds as (xg & xb & TG & TB).
  assert (HH : history exg_hooks m0 m0) by constructor.
  split.
  - refine (proj2 (C98_gripper_motor_limp true exb_P exb_L exb_new exg_urdf exg_root nzero ex_hw exb_mem exg_state exg_plant exg_loaded exg_usable exd_tick exd_cb 45%Z 25%Z exb_cb_keeps
      _ m0 m0 true true m' p' ms ma 0 xg 0 0 ST HH E PP SE TG _ _ _ (UN 0) Z0 Y3)); [split; reflexivity|apply EX; lia|exists [0]; split; reflexivity|exists [0; 1; 2; 3]; split; reflexivity].
  - edestruct (C98_belt_motor_only_damped true exb_P exb_L exb_new exg_urdf exg_root nzero ex_hw exb_mem exg_state exg_plant exg_loaded exg_usable exd_tick exd_cb 45%Z 25%Z exb_cb_keeps) as (y & _ & A);
      [split; reflexivity|exact ST|exact HH|exact E|exact PP|exact SE|exact TB|apply EX; lia|exists [1]; split; reflexivity|exists [4]; split; reflexivity|exact (UN 4)|exact Z4|]. exists y. exact A.
Qed.
Definition exg1 : res (mgr (sysw (transmission B64) B64 Z)) := update exg_hooks true true exg0.
Definition exg2 : mgr (sysw (transmission B64) B64 Z) := match exg1 with Ok m => m | _ => exg0 end.
Theorem C98_ex_gripper_belt : exists p' ms ma, sy_plant (world exg2) = Ok p' /\ sent (sy_out (world exg2)) = [(ms, ma)] /\ no_effort (a_effort (m_act ma 0)) /\
    exists y : belt B64, a_effort (m_act ma 1) = ndiv (nadd f0 (belt_damping y)) (bt_red y).
Proof.
  apply exg_generic with exg0 exg1.
  - repeat split.
  - reflexivity.
  - unfold exg1. reflexivity.
  - unfold exg2. reflexivity.
  - vm_compute. reflexivity.
  - vm_compute. reflexivity.
  - vm_compute. reflexivity.
Qed.
End Example2.
