(** What one step of an interleaving does to the robot. *)
From Coq Require Import List String Arith Bool ZArith Lia.
From Verif.Model Require Import Base Num Joint Hardware Transmission Scheduler Controller Manager ManagerConc Robot System.
From Verif.Spec Require Import JointSpec SystemSpec ConcSystemSpec.
From Verif.Proofs Require Import WorldSteps SystemProofs ConcWorld.
Import ListNotations.

Section Sys.
Context {Tr T X : Type} {N : Num T} (K : tclass Tr T) (dbg : bool) (s : rstate) (tick : X -> Z * X)
        (cb : ptr -> callback -> X -> mem T -> X * mem T) (pm pj : Z).
Let H : hooks (sysw Tr T X) := sys_hooks K dbg s tick cb pm pj.
Notation config := (config (sysw Tr T X)).

Definition out_of (c : config) := sy_out (world (mg c)).
Definition quiet_out (c c' : config) : Prop := out_of c' = out_of c /\ same_pub (mg c) (mg c').

(** from plant [p] to plant [p'] in one step *)
Definition sys_step (l : label (sysw Tr T X)) (c c' : config) (p p' : plant Tr T) : Prop :=
  match l with
  | LRt _ b =>
    match rt c with
    | RBegin => exists ts m1 m2, propagateActuatorPositionToJointPosition K s (pl_ts p) (pl_mem p) = Ok (ts, m1) /\
        zeroCommands s m1 = Ok m2 /\ p' = set_pl_mem m2 (set_pl_ts ts (set_pl_mem m1 p)) /\ quiet_out c c' /\ (rt c' = RRestart 0 \/ rt c' = RUpdate 0)
    | REffort => exists ts m, propagateJointEffortToActuatorEffort K s (pl_ts p) (pl_mem p) = Ok (ts, m) /\
        p' = set_pl_ts ts (set_pl_mem m p) /\ out_of c' = out_of c ++ [OutEffort (pl_mem p) m] /\ same_pub (mg c) (mg c') /\ rt c' = RPub1
    | RPub1 => p' = p /\ quiet_out c c' /\ (rt c' = RPub2 \/ exists t, rt c' = RFill t /\ (last_mech (mg c) + pm < t)%Z)
    | RFill t => exists m js acts, fill_joint_stats dbg t (seq 0 (rs_size s)) 0 (pl_mem p) (pl_jstats p) = Ok (m, js) /\
        fill_actuator_stats m (pl_hw p) 0 (pl_astats p) = Ok acts /\
        p' = mkPlant (pl_ts p) m (pl_hw p) (pl_js p) js acts /\ out_of c' = out_of c ++ [OutStats t js acts] /\
        last_js (mg c') = last_js (mg c) /\ catch_up (catch_up_fuel (last_mech (mg c)) t) (last_mech (mg c)) pm t = Ok (last_mech (mg c')) /\ rt c' = RPub2
    | RPub2 => rt c' = RSwitch /\ last_mech (mg c') = last_mech (mg c) /\
        ((p' = p /\ quiet_out c c') \/
         exists t msg, b = true /\ (last_js (mg c) + pj < t)%Z /\ catch_up (catch_up_fuel (last_js (mg c)) t) (last_js (mg c)) pj t = Ok (last_js (mg c')) /\
           fill_joint_state dbg (pl_mem p) (seq 0 (rs_size s)) 0 (pl_js p) = Ok msg /\
           p' = mkPlant (pl_ts p) (pl_mem p) (pl_hw p) msg (pl_jstats p) (pl_astats p) /\ out_of c' = out_of c ++ [OutJoints t msg])
    | RUpdate i =>
        ((exists cbs m, written cb cbs (pl_mem p) m /\ p' = set_pl_mem m p) /\ quiet_out c c' /\ rt c' = RUpdate (S i)) \/
        (exists m, enforceSafety s (pl_mem p) = Ok m /\ p' = set_pl_mem m p /\ quiet_out c c' /\ rt c' = REffort)
    | RRestart _ | RRestarting _ => (exists cbs m, written cb cbs (pl_mem p) m /\ p' = set_pl_mem m p) /\ quiet_out c c' /\
        match rt c' with RRestart _ | RRestarting _ | RUpdate _ => True | _ => False end
    | _ => (exists cbs m, no_update cbs /\ written cb cbs (pl_mem p) m /\ p' = set_pl_mem m p) /\ quiet_out c c' /\
        match rt c' with RIdle | RGot _ | RBegin | RStop _ | RStart _ | REnd => True | _ => False end
    end
  | _ => True
  end.

Lemma set_pl_mem_same (p : plant Tr T) : set_pl_mem (pl_mem p) p = p.
Proof. destruct p; reflexivity. Qed.

Lemma crash_acts cbs w w' p' : acts H cbs w w' -> sy_plant w' = Ok p' -> exists p, sy_plant w = Ok p.
Proof.
  intros A E. destruct (sy_plant w) as [p| | |] eqn:Q; eauto; exfalso;
  (assert (sy_plant w' = sy_plant w) as Y by (apply (acts_crash K dbg s tick cb pm pj _ _ _ A); intros; congruence)); congruence.
Qed.

Lemma moved_plant cbs (c c' : config) p' : moved H cbs (mg c) (mg c') -> sy_plant (world (mg c')) = Ok p' ->
  exists p m, sy_plant (world (mg c)) = Ok p /\ written cb cbs (pl_mem p) m /\ p' = set_pl_mem m p /\ quiet_out c c'.
Proof.
  intros [A S] E. destruct (crash_acts _ _ _ _ A E) as [p Q].
  destruct (acts_plant K dbg s tick cb pm pj _ _ _ A p Q) as (m & Q' & WR). exists p, m. split; [exact Q|]. split; [exact WR|].
  split; [congruence|]. split; [apply (acts_out K dbg s tick cb pm pj _ _ _ A)|exact S].
Qed.

Lemma rt_plant a b (c c' : config) p' : bstep H (LRt a b) c = Some (Ok c') -> sy_plant (world (mg c')) = Ok p' ->
  exists p, sy_plant (world (mg c)) = Ok p /\ sys_step (LRt a b) c c' p p'.
Proof.
  intros E Q. pose proof (bstep_world H _ _ _ E) as B. cbn beta iota in B. cbn [sys_step]. unfold rt_world in B.
  pose proof (now_plant K dbg s tick cb pm pj (world (mg c))) as [NP NO]. fold H in NP, NO.
  assert (MV : forall cbs, moved H cbs (mg c) (mg c') -> exists p, sy_plant (world (mg c)) = Ok p /\
             (exists cbs m, written cb cbs (pl_mem p) m /\ p' = set_pl_mem m p) /\ quiet_out c c').
  { intros cbs M. destruct (moved_plant _ _ _ _ M Q) as (p & m & A1 & A2 & A3 & A4). exists p. split; [exact A1|]. split; [eauto|exact A4]. }
  assert (NV : forall cbs, no_update cbs -> moved H cbs (mg c) (mg c') -> exists p, sy_plant (world (mg c)) = Ok p /\
             (exists cbs m, no_update cbs /\ written cb cbs (pl_mem p) m /\ p' = set_pl_mem m p) /\ quiet_out c c').
  { intros cbs NU M. destruct (moved_plant _ _ _ _ M Q) as (p & m & A1 & A2 & A3 & A4). exists p. split; [exact A1|]. split; [eauto|exact A4]. }
  destruct (rt c) as [|x| |i|i|i| | |t| | |ps|ps|].
  - destruct B as [M (y & ->)]. destruct (NV [] ltac:(constructor) M) as (p & A1 & A2 & A3). exists p. auto.
  - destruct B as [M ->]. destruct (NV [] ltac:(constructor) M) as (p & A1 & A2 & A3). exists p. auto.
  - destruct B as (A & S & PC). destruct (acts_nil_plant K dbg s tick cb pm pj _ _ A) as [A1 A2]. rewrite Q in A1. symmetry in A1.
    unfold H in A1, A2. cbn [h_zero h_propagate sys_hooks] in A1, A2.
    unfold sys_zero in A1. destruct (on_plant_ok _ _ _ A1) as (p1 & o1 & B1 & B2 & B3).
    unfold sys_propagate in B1. destruct (on_plant_ok _ _ _ B1) as (p & o & C1 & C2 & C3).
    exists p. split; [etransitivity; [symmetry; exact NP|exact C1]|].
    destruct (propagateActuatorPositionToJointPosition K s (pl_ts p) (pl_mem p)) as [[ts m1]| | |] eqn:PR; cbn [bind] in C2; try discriminate. injection C2 as <- <-.
    cbn [pl_mem set_pl_ts set_pl_mem] in B2. destruct (zeroCommands s m1) as [m2| | |] eqn:Z0; cbn [bind] in B2; try discriminate. injection B2 as <- <-.
    exists ts, m1, m2. split; [reflexivity|]. split; [exact Z0|]. split; [reflexivity|]. split; [|exact PC]. split; [|exact S].
    unfold out_of. rewrite A2. unfold sys_zero, sys_propagate. etransitivity; [exact B3|]. rewrite app_nil_r. etransitivity; [exact C3|]. rewrite app_nil_r. exact NO.
  - destruct B as [(cbs & M) PC]. destruct (MV _ M) as (p & A1 & A2 & A3). exists p. split; [exact A1|]. split; [exact A2|]. split; [exact A3|].
    destruct PC as [-> |[-> | ->]]; exact I.
  - destruct B as [(cbs & M) PC]. destruct (MV _ M) as (p & A1 & A2 & A3). exists p. split; [exact A1|]. split; [exact A2|]. split; [exact A3|]. rewrite PC. exact I.
  - destruct B as [((cbs & M) & PC)|(A & S & PC)].
    + destruct (MV _ M) as (p & A1 & A2 & A3). exists p. split; [exact A1|]. left. auto.
    + assert (Q1 := Q). rewrite A in Q1. unfold H in Q1. cbn [h_enforce sys_hooks] in Q1. unfold sys_enforce in Q1. destruct (on_plant_ok _ _ _ Q1) as (p & o & B1 & B2 & B3).
      exists p. split; [etransitivity; [symmetry; exact NP|exact B1]|]. right.
      destruct (enforceSafety s (pl_mem p)) as [m| | |]; cbn [bind] in B2; try discriminate. injection B2 as <- <-. exists m. split; [reflexivity|]. split; [reflexivity|].
      split; [|exact PC]. split; [|exact S]. unfold out_of. rewrite A. unfold H. cbn [h_enforce sys_hooks]. unfold sys_enforce. etransitivity; [exact B3|]. rewrite app_nil_r. exact NO.
  - destruct B as (A & S & PC). destruct (acts_nil_plant K dbg s tick cb pm pj _ _ A) as [A1 A2]. rewrite Q in A1. symmetry in A1.
    unfold H in A1, A2. cbn [h_effort sys_hooks] in A1, A2. unfold sys_effort in A1. destruct (on_plant_ok _ _ _ A1) as (p & o & B1 & B2 & B3).
    exists p. split; [exact B1|]. destruct (propagateJointEffortToActuatorEffort K s (pl_ts p) (pl_mem p)) as [[ts m]| | |]; cbn [bind] in B2; try discriminate. injection B2 as <- <-.
    exists ts, m. split; [reflexivity|]. split; [reflexivity|]. split; [|split; [exact S|exact PC]]. unfold out_of. rewrite A2. exact B3.
  - destruct B as (t & N1 & S & PC). rewrite N1 in NP, NO. cbn [snd] in NP, NO. exists p'. split; [rewrite <- NP; exact Q|]. split; [reflexivity|]. split; [split; [exact NO|exact S]|].
    destruct PC as [PC|[PC D]]; [auto|]. right. exists t. auto.
  - destruct B as (CU & A & LJ & PC). destruct (acts_nil_plant K dbg s tick cb pm pj _ _ A) as [A1 A2]. rewrite Q in A1. symmetry in A1.
    unfold H in A1, A2. cbn [h_pub_mech sys_hooks] in A1, A2. unfold sys_pub_mech in A1. destruct (on_plant_ok _ _ _ A1) as (p & o & B1 & B2 & B3).
    exists p. split; [exact B1|]. destruct (fill_joint_stats _ _ _ _ _ _) as [[m js]| | |]; cbn [bind] in B2; try discriminate.
    destruct (fill_actuator_stats _ _ _ _) as [acts| | |] eqn:FA; cbn [bind] in B2; try discriminate. injection B2 as <- <-.
    exists m, js, acts. split; [reflexivity|]. split; [exact FA|]. split; [reflexivity|]. split; [unfold out_of; rewrite A2; exact B3|]. auto.
  - destruct B as (AT & LM & PC). 
    assert (exists p, sy_plant (world (mg c)) = Ok p) as [p Qp].
    { destruct (attempt_out K dbg s tick cb pm pj _ _ _ _ _ _ _ _ AT Q) as [[B _]|(t & w1 & B & _ & C & _)]; eauto.
      unfold H in C. cbn [h_pub_js sys_hooks] in C. unfold sys_pub_js in C. apply on_plant_ok in C. destruct C as (p & o & C & _). rewrite B in C. eauto. }
    exists p. split; [exact Qp|]. split; [exact PC|]. split; [exact LM|].
    destruct (js_case K dbg s tick cb pm pj _ _ _ _ _ _ _ AT Qp Q) as [(-> & OO & LJ & _)|(t & msg & LL & TT & CU & FM & -> & OO)].
    + left. split; [reflexivity|]. split; [exact OO|]. split; [exact LJ|exact LM].
    + right. exists t, msg. auto 8.
  - destruct B as [(cbs & NU & M) PC]. destruct (NV _ NU M) as (p & A1 & A2 & A3). exists p. split; [exact A1|]. split; [exact A2|]. split; [exact A3|]. destruct (rt c'); auto.
  - destruct B as [(cbs & NU & M) PC]. destruct (NV _ NU M) as (p & A1 & A2 & A3). exists p. split; [exact A1|]. split; [exact A2|]. split; [exact A3|]. destruct (rt c'); auto.
  - destruct B as [(cbs & NU & M) PC]. destruct (NV _ NU M) as (p & A1 & A2 & A3). exists p. split; [exact A1|]. split; [exact A2|]. split; [exact A3|]. destruct (rt c'); auto.
  - destruct B as [(cbs & NU & M) PC]. destruct (NV _ NU M) as (p & A1 & A2 & A3). exists p. split; [exact A1|]. split; [exact A2|]. split; [exact A3|]. destruct (rt c'); auto.
Qed.

(** the other threads and the outside *)
Lemma other_plant l (c c' : config) p' : bstep H l c = Some (Ok c') -> (forall a b, l <> LRt a b) ->
  match l with LEnv f => outside f | _ => True end -> sy_plant (world (mg c')) = Ok p' ->
  exists p m, sy_plant (world (mg c)) = Ok p /\ p' = set_pl_mem m p /\ quiet_out c c' /\ rt c' = rt c /\
    ((keeps_joints cb -> forall k, js_joint (m_js m k) = js_joint (m_js (pl_mem p) k)) /\
     (forall k, inits_leave cb k -> outside_leaves k [l] -> commanded_effort (m_js m k) = commanded_effort (m_js (pl_mem p) k))).
Proof.
  intros E NR O Q. pose proof (bstep_world H _ _ _ E) as B.
  assert (G : rt c' = rt c /\ (exists cbs, Forall is_init cbs /\ moved H cbs (mg c) (mg c')) ->
    exists p m, sy_plant (world (mg c)) = Ok p /\ p' = set_pl_mem m p /\ quiet_out c c' /\ rt c' = rt c /\
    ((keeps_joints cb -> forall k, js_joint (m_js m k) = js_joint (m_js (pl_mem p) k)) /\
     (forall k, inits_leave cb k -> outside_leaves k [l] -> commanded_effort (m_js m k) = commanded_effort (m_js (pl_mem p) k)))).
  { intros (R1 & cbs & IN & M). destruct (moved_plant _ _ _ _ M Q) as (p & m & A1 & A2 & A3 & A4). exists p, m. repeat (split; [assumption|]). split.
    - intros KJ. apply (written_joints cb _ _ _ KJ A2).
    - intros k IL _. apply (written_command cb cbs); [|exact A2]. clear - IN IL. induction IN as [|[q kk] cbs (b & Eb) IN IH]; constructor; auto. cbn [snd] in Eb. subst kk. apply IL. }
  destruct l as [a b|k|k srv pr| | | |f]; try exact (G B); [destruct (NR a b eq_refl)|].
  destruct B as (R1 & WE & S). specialize (O (world (mg c))) as [O1 O2]. rewrite <- WE in O1, O2.
  destruct (sy_plant (world (mg c))) as [p| | |] eqn:Qc; try congruence. destruct O2 as (m & Q' & J).
  exists p, m. split; [reflexivity|]. split; [congruence|]. split; [split; [exact O1|exact S]|]. split; [exact R1|]. split; [auto|].
  intros k _ OL. inversion OL as [|? ? F _]; subst. rewrite WE in Q'. exact (F _ _ _ Qc Q').
Qed.
End Sys.
