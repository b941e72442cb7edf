(** C39, C59, C60, C66 (whole system), C68: the manager wired to a robot. *)
From Coq Require Import List String Arith Bool ZArith Lia Reals Lra.
From Flocq Require Import Core.Raux Core.Generic_fmt Core.Round_NE IEEE754.BinarySingleNaN.
From Verif.Model Require Import Base Num Xml Joint Hardware Transmission Scheduler Controller Manager Robot Builtin System.
From Verif.Spec Require Import JointSpec ManagerSpec RobotSpec SystemSpec.
From Verif.Proofs Require Import ManagerProofs ManagerInv CycleTotal LoadProofs RobotProofs WorldSteps SystemProofs.
From Verif.Props Require Import JointProps ManagerProps RobotProps.
Import ListNotations.

Section Generic.
Context {Tr T X : Type} {N : Num T} (K : tclass Tr T) (dbg : bool) (s : rstate) (tick : X -> Z * X)
        (cb : ptr -> callback -> X -> mem T -> X * mem T) (pm pj : Z).
Let H : hooks (sysw Tr T X) := sys_hooks K dbg s tick cb pm pj.

Lemma sent_app {A} (a b : list (output A)) : sent (a ++ b) = sent a ++ sent b.
Proof. apply flat_map_app. Qed.

(** ** C39: whatever the controllers write, what reaches the transmissions is the enforced version of what this cycle's
    callbacks made of zero. *)
Theorem C39_one_cycle : forall l1 l2 m m' p',
  update H l1 l2 m = Ok m' -> sy_plant (world m') = Ok p' ->
  exists cbs rest mz mb ms ma ts ts',
    trace m' = trace m ++ [EvPropagate; EvZero] ++ cb_events cbs ++ [EvEnforce; EvEffort] ++ rest /\
    (forall k, k < rs_size s -> commanded_effort (m_js mz k) = nzero) /\
    written cb cbs mz mb /\
    (forall k, k < rs_size s -> enforceLimits (m_js mb k) = Ok (m_js ms k)) /\
    propagateJointEffortToActuatorEffort K s ts ms = Ok (ts', ma) /\
    sent (sy_out (world m')) = sent (sy_out (world m)) ++ [(ms, ma)].
Proof.
  intros l1 l2 m m' p' E P.
  destruct (cycle K dbg s tick cb pm pj l1 l2 m m' p' E P) as (p & ts1 & m1 & m2 & cbs & mb & ms & ts2 & ma & wm & wj & pm1 & pj1 & cbs' & rest & _ & _ & Z0 & WR & EN & EF & TR & we & PE & OE & M & J & PM & PJ & _ & OJ & _).
  exists cbs, rest, m2, mb, ms, ma, ts1, ts2. split; [exact TR|]. split.
  { intros k L. rewrite (proj2 (zero_spec s _ _ Z0) k L). reflexivity. }
  split; [exact WR|]. split; [apply (enforce_spec s _ _ EN)|]. split; [exact EF|].
  rewrite OJ. destruct (js_case K dbg s tick cb pm pj _ _ _ _ _ _ _ J PM PJ) as [(_ & -> & _)|(t & msg & _ & _ & _ & _ & _ & ->)];
  destruct (mech_case K dbg s tick cb pm pj _ _ _ _ _ _ _ M PE PM) as [(_ & -> & _)|(t' & m4 & js & acts & _ & _ & _ & _ & _ & _ & ->)];
  rewrite OE, !sent_app; cbn [sent flat_map app]; rewrite ?app_nil_r; reflexivity.
Qed.

(** a joint no callback of this cycle writes a command to gets (the enforced version of) zero *)
Theorem C39_untouched_joint_zero : forall cbs mz mb k,
  commanded_effort (m_js mz k) = nzero -> written cb cbs mz mb -> Forall (leaves_command cb k) cbs ->
  commanded_effort (m_js mb k) = nzero.
Proof. intros cbs mz mb k Z0 WR L. rewrite (written_command cb cbs mz mb k L WR). exact Z0. Qed.

(** in every history, everything ever handed to the transmissions was enforced *)
Theorem C39_every_sent_effort_enforced : forall p0 m0 m p, starts p0 m0 -> history H m0 m -> sy_plant (world m) = Ok p ->
  forall ms ma k, In (ms, ma) (sent (sy_out (world m))) -> k < rs_size s ->
  exists j, enforceLimits j = Ok (m_js ms k).
Proof.
  intros p0 m0 m p ST HI. revert p. induction HI as [|m o a m' HI IH OO S]; intros p P ms ma k IN L.
  - destruct ST as (_ & _ & E). rewrite E in IN. destruct IN.
  - destruct o as [env name|name|st sp kk|l1 l2|f|].
    4:{ pose proof (service_world H m _ a m' S) as U. cbn in U.
        destruct (C39_one_cycle _ _ _ _ _ U P) as (cbs & rest & mz & mb & ms' & ma' & ts & ts' & _ & _ & _ & EN & _ & SE).
        rewrite SE in IN. apply in_app_or in IN. destruct IN as [IN|[IN|[]]].
        - destruct (cycle K dbg s tick cb pm pj l1 l2 m m' p U P) as (q & _ & _ & _ & _ & _ & _ & _ & _ & _ & _ & _ & _ & _ & _ & Q & _).
          eapply IH; eauto.
        - injection IN as <- <-. exists (m_js mb k). apply EN. exact L. }
    all: destruct (service_case K dbg s tick cb pm pj _ _ _ _ S OO ltac:(discriminate)) as (SO & _ & _ & UN & _);
      destruct (UN _ P) as [q Q]; rewrite SO in IN; eapply IH; eauto.
Qed.

(** ** C59: publication times *)
Lemma catch_up_inv : forall fuel last per t last', catch_up fuel last per t = Ok last' ->
  exists n : nat, last' = (last + Z.of_nat n * per)%Z /\ (t <= last' + per)%Z /\ (n = 0 \/ (last' < t)%Z).
Proof.
  induction fuel as [|f IH]; intros last per t last' E; cbn [catch_up] in E; destruct (Z.ltb_spec (last + per) t) as [D|D]; try discriminate.
  - injection E as <-. exists 0. split; [lia|]. split; [lia|auto].
  - destruct (IH _ _ _ _ E) as (n & -> & A & B). exists (S n). split; [lia|]. split; [lia|]. right. destruct B as [->|B]; [|lia]. lia.
  - injection E as <-. exists 0. split; [lia|]. split; [lia|auto].
Qed.

(** With a positive period the publications of any history fall into distinct, ever later periods counted from
    the initialisation: at most one per period, and no drift. *)
Theorem C59_one_joint_message_per_period : forall p0 m0 m p, (0 < pj)%Z -> starts p0 m0 -> history H m0 m -> sy_plant (world m) = Ok p ->
  exists ks, increasing 0 ks /\ Forall2 (fun k tm => in_window (last_js m0) pj k (fst tm)) ks (joint_messages (sy_out (world m))).
Proof.
  intros p0 m0 m p HP ST HI P.
  enough (exists ks k, increasing 0 ks /\ Forall2 (fun k tm => in_window (last_js m0) pj k (fst tm)) ks (joint_messages (sy_out (world m))) /\
          last_js m = (last_js m0 + k * pj)%Z /\ (0 <= k)%Z /\ (forall k', (k < k')%Z -> increasing 0 (ks ++ [k']))) as (ks & k & A & B & _) by eauto.
  revert p P. induction HI as [|m o a m' HI IH OO S]; intros p P.
  - exists [], 0%Z. destruct ST as (_ & _ & ->). split; [constructor|]. split; [constructor|]. split; [lia|]. split; [lia|]. intros k' L. repeat constructor. exact L.
  - destruct o as [env name|name|st sp kk|l1 l2|f|].
    4:{ pose proof (service_world H m _ a m' S) as U. cbn in U.
        destruct (cycle K dbg s tick cb pm pj l1 l2 m m' p U P) as (q & ts1 & m1 & m2 & cbs & mb & ms & ts2 & ma & wm & wj & pm1 & pj1 & cbs' & rest & Q & _ & _ & _ & _ & _ & _ & we & PE & OE & M & J & PM & PJ & _ & OJ & _).
        destruct (IH _ Q) as (ks & k & A & B & C & D & F). clear IH.
        assert (JM : joint_messages (sy_out wm) = joint_messages (sy_out (world m))).
        { unfold joint_messages. destruct (mech_case K dbg s tick cb pm pj _ _ _ _ _ _ _ M PE PM) as [(_ & -> & _)|(t' & m4 & js & acts & _ & _ & _ & _ & _ & _ & ->)];
          rewrite OE, !flat_map_app; cbn [flat_map app]; rewrite ?app_nil_r; reflexivity. }
        rewrite OJ. destruct (js_case K dbg s tick cb pm pj _ _ _ _ _ _ _ J PM PJ) as [(_ & -> & LJ & _)|(t & msg & _ & TT & CU & _ & _ & ->)].
        - exists ks, k. rewrite JM, LJ. auto.
        - destruct (catch_up_inv _ _ _ _ _ CU) as (n & LJ & W1 & W2).
          assert (NP : n <> 0). { intros ->. lia. }
          destruct W2 as [?|W2]; [contradiction|].
          set (k' := (k + Z.of_nat n)%Z). assert (L' : last_js m' = (last_js m0 + k' * pj)%Z) by (unfold k'; rewrite LJ, C; lia).
          assert (KK : (k < k')%Z) by (unfold k'; lia).
          exists (ks ++ [k']), k'. split; [apply F; exact KK|]. split.
          { unfold joint_messages in *. rewrite flat_map_app. cbn [flat_map app]. rewrite JM. apply Forall2_app; [exact B|]. constructor; [|constructor].
            cbn [fst]. unfold in_window. split; [lia|]. replace ((k' + 1) * pj)%Z with (k' * pj + pj)%Z by lia. lia. }
          split; [exact L'|]. split; [lia|]. intros k'' L2. rewrite <- app_assoc. cbn [app]. specialize (F k' KK). clear - F L2.
          revert F. generalize 0%Z. induction ks as [|x ks IHk]; intros z F; cbn [app] in *; inversion F; subst; constructor; auto. constructor; auto. constructor. }
    all: destruct (service_case K dbg s tick cb pm pj _ _ _ _ S OO ltac:(discriminate)) as (SO & LJ & _ & UN & _);
      destruct (UN _ P) as [q Q]; destruct (IH _ Q) as (ks & k & A & B & C & D & F); exists ks, k; rewrite SO, LJ; auto.
Qed.
End Generic.

Section Generic2.
Context {Tr T X : Type} {N : Num T} (K : tclass Tr T) (dbg : bool) (s : rstate) (tick : X -> Z * X)
        (cb : ptr -> callback -> X -> mem T -> X * mem T) (pm pj : Z).
Let H : hooks (sysw Tr T X) := sys_hooks K dbg s tick cb pm pj.

Theorem C59_one_statistics_message_per_period : forall p0 m0 m p, (0 < pm)%Z -> starts p0 m0 -> history H m0 m -> sy_plant (world m) = Ok p ->
  exists ks, increasing 0 ks /\ Forall2 (fun k tm => in_window (last_mech m0) pm k (fst (fst tm))) ks (stat_messages (sy_out (world m))).
Proof.
  intros p0 m0 m p HP ST HI P.
  enough (exists ks k, increasing 0 ks /\ Forall2 (fun k tm => in_window (last_mech m0) pm k (fst (fst tm))) ks (stat_messages (sy_out (world m))) /\
          last_mech m = (last_mech m0 + k * pm)%Z /\ (0 <= k)%Z /\ (forall k', (k < k')%Z -> increasing 0 (ks ++ [k']))) as (ks & k & A & B & _) by eauto.
  revert p P. induction HI as [|m o a m' HI IH OO S]; intros p P.
  - exists [], 0%Z. destruct ST as (_ & _ & ->). split; [constructor|]. split; [constructor|]. split; [lia|]. split; [lia|]. intros k' L. repeat constructor. exact L.
  - destruct o as [env name|name|st sp kk|l1 l2|f|].
    4:{ pose proof (service_world H m _ a m' S) as U. cbn in U.
        destruct (cycle K dbg s tick cb pm pj l1 l2 m m' p U P) as (q & ts1 & m1 & m2 & cbs & mb & ms & ts2 & ma & wm & wj & pm1 & pj1 & cbs' & rest & Q & _ & _ & _ & _ & _ & _ & we & PE & OE & M & J & PM & PJ & _ & OJ & _).
        destruct (IH _ Q) as (ks & k & A & B & C & D & F). clear IH.
        assert (JM : stat_messages (sy_out (world m')) = stat_messages (sy_out wm)).
        { unfold stat_messages. rewrite OJ. destruct (js_case K dbg s tick cb pm pj _ _ _ _ _ _ _ J PM PJ) as [(_ & -> & _)|(t & msg & _ & _ & _ & _ & _ & ->)];
          rewrite ?flat_map_app; cbn [flat_map app]; rewrite ?app_nil_r; reflexivity. }
        assert (EM : stat_messages (sy_out we) = stat_messages (sy_out (world m))).
        { unfold stat_messages. rewrite OE, flat_map_app. cbn [flat_map app]. now rewrite app_nil_r. }
        rewrite JM. destruct (mech_case K dbg s tick cb pm pj _ _ _ _ _ _ _ M PE PM) as [(_ & -> & LJ & _)|(t & m4 & js & acts & _ & TT & CU & _ & _ & _ & ->)].
        - exists ks, k. rewrite EM, LJ. auto.
        - destruct (catch_up_inv _ _ _ _ _ CU) as (n & LJ & W1 & W2).
          assert (NP : n <> 0). { intros ->. lia. }
          destruct W2 as [?|W2]; [contradiction|].
          set (k' := (k + Z.of_nat n)%Z). assert (L' : last_mech m' = (last_mech m0 + k' * pm)%Z) by (unfold k'; rewrite LJ, C; lia).
          assert (KK : (k < k')%Z) by (unfold k'; lia).
          exists (ks ++ [k']), k'. split; [apply F; exact KK|]. split.
          { unfold stat_messages in *. rewrite flat_map_app. cbn [flat_map app]. rewrite EM. apply Forall2_app; [exact B|]. constructor; [|constructor].
            cbn [fst]. unfold in_window. split; [lia|]. replace ((k' + 1) * pm)%Z with (k' * pm + pm)%Z by lia. lia. }
          split; [exact L'|]. split; [lia|]. intros k'' L2. rewrite <- app_assoc. cbn [app]. specialize (F k' KK). clear - F L2.
          revert F. generalize 0%Z. induction ks as [|x ks IHk]; intros z F; cbn [app] in *; inversion F; subst; constructor; auto. constructor; auto. constructor. }
    all: destruct (service_case K dbg s tick cb pm pj _ _ _ _ S OO ltac:(discriminate)) as (SO & _ & LJ & UN & _);
      destruct (UN _ P) as [q Q]; destruct (IH _ Q) as (ks & k & A & B & C & D & F); exists ks, k; rewrite SO, LJ; auto.
Qed.

(** A cycle that gets the publisher lock publishes if the clock is past the next period: whatever fact [Q] about the outside
    guarantees that. *)
Theorem C59_published_when_due : forall l1 m m' p' (Q : X -> Prop),
  update H l1 true m = Ok m' -> sy_plant (world m') = Ok p' ->
  Q (sy_user (world m)) ->
  (forall x, Q x -> Q (snd (tick x)) /\ (last_js m + pj < fst (tick x))%Z) ->
  (forall c k x mm, Q x -> Q (fst (cb c k x mm))) ->
  exists t msg, joint_messages (sy_out (world m')) = joint_messages (sy_out (world m)) ++ [(t, msg)].
Proof.
  intros l1 m m' p' Q E P QM QT QC.
  destruct (cycle K dbg s tick cb pm pj l1 true m m' p' E P) as (q & ts1 & m1 & m2 & cbs & mb & ms & ts2 & ma & wm0 & wj0 & pm1 & pj1 & cbs' & rest & _).
  destruct (update_world H l1 true m m' E) as (cbs1 & wb & we & wm & wj & cbs2 & rest' & A1 & A2 & M & J & A3 & TR).
  assert (QA : forall cbs w w', acts H cbs w w' -> Q (sy_user w) -> Q (sy_user w')).
  { induction 1 as [w|cb0 w w' A IH|c k cb0 w w' A IH]; intros QW; auto.
    - apply IH. unfold H. cbn [h_now sys_hooks]. destruct (QT _ QW) as [Q1 _]. destruct (tick (sy_user w)). exact Q1.
    - apply IH. unfold H. cbn [h_cb sys_hooks]. unfold sys_cb. destruct (sy_plant w); auto. specialize (QC c k (sy_user w) (pl_mem a) QW). destruct (cb c k _ _). exact QC. }
  assert (OP : forall f (w : sysw Tr T X), sy_user (on_plant f w) = sy_user w).
  { intros f w. unfold on_plant. destruct (sy_plant w); auto. destruct (f a) as [[]| | |]; auto. }
  assert (Qe : Q (sy_user we)).
  { apply (QA _ _ _ A2). unfold H. cbn [h_effort h_enforce sys_hooks]. unfold sys_effort, sys_enforce. rewrite !OP. apply (QA _ _ _ A1).
    unfold H. cbn [h_zero h_propagate h_now sys_hooks]. unfold sys_zero, sys_propagate. rewrite !OP. destruct (QT _ QM) as [Q1 _]. destruct (tick (sy_user (world m))). exact Q1. }
  assert (Qm : Q (sy_user wm)).
  { destruct M as (t & w1 & E1 & D). unfold H in E1. cbn [h_now sys_hooks] in E1. destruct (QT _ Qe) as [Q1 _]. destruct (tick (sy_user we)) as [t' x']. injection E1 as <- <-.
    destruct D as [(_ & -> & _)|(_ & _ & A)]; [exact Q1|]. apply (QA _ _ _ A). unfold H. cbn [h_pub_mech sys_hooks]. unfold sys_pub_mech. rewrite OP. exact Q1. }
  assert (OUT : forall a b, acts H a b (world m') -> exists pb, sy_plant b = Ok pb).
  { intros a b A. destruct (sy_plant b) as [pb| | |] eqn:B; eauto; exfalso;
    pose proof (acts_crash K dbg s tick cb pm pj _ _ _ A) as X1; rewrite B in X1; fold H in X1; rewrite X1 in P by (intros; discriminate); discriminate. }
  destruct (OUT _ _ A3) as [pj2 PJ].
  rewrite (acts_out K dbg s tick cb pm pj _ _ _ A3).
  assert (PM : exists pm2, sy_plant wm = Ok pm2).
  { destruct (attempt_out K dbg s tick cb pm pj _ _ _ _ _ _ _ _ J PJ) as [[B _]|(t & w1 & B & _ & C & _)]; eauto.
    unfold H in C. cbn [h_pub_js sys_hooks] in C. unfold sys_pub_js in C. apply on_plant_ok in C. destruct C as (p & o & C & _). rewrite B in C. eauto. }
  destruct PM as [pm2 PM].
  assert (JM : joint_messages (sy_out wm) = joint_messages (sy_out (world m))).
  { assert (AE : joint_messages (sy_out we) = joint_messages (sy_out (world m))).
    { rewrite (acts_out K dbg s tick cb pm pj _ _ _ A2). unfold H. cbn [h_effort h_enforce sys_hooks].
      assert (OUTF : forall f (w : sysw Tr T X), (forall p p1 o, f p = Ok (p1, o) -> joint_messages o = []) -> joint_messages (sy_out (on_plant f w)) = joint_messages (sy_out w)).
      { intros f w F. unfold on_plant. destruct (sy_plant w) as [p| | |]; auto. destruct (f p) as [[p1 o]| | |] eqn:FE; auto. cbn [sy_out].
        unfold joint_messages in *. rewrite flat_map_app, (F _ _ _ FE). apply app_nil_r. }
      unfold sys_effort. rewrite OUTF.
      2:{ intros p p1 o. destruct (propagateJointEffortToActuatorEffort _ _ _ _) as [[]| | |]; cbn [bind]; try discriminate. intros Q1. injection Q1 as <- <-. reflexivity. }
      unfold sys_enforce. rewrite OUTF.
      2:{ intros p p1 o. destruct (enforceSafety _ _) as [| | |]; cbn [bind]; try discriminate. intros Q1. injection Q1 as <- <-. reflexivity. }
      rewrite (acts_out K dbg s tick cb pm pj _ _ _ A1). unfold H. cbn [h_zero h_propagate sys_hooks]. unfold sys_zero. rewrite OUTF.
      2:{ intros p p1 o. destruct (zeroCommands _ _) as [| | |]; cbn [bind]; try discriminate. intros Q1. injection Q1 as <- <-. reflexivity. }
      unfold sys_propagate. rewrite OUTF.
      2:{ intros p p1 o. destruct (propagateActuatorPositionToJointPosition _ _ _ _) as [[]| | |]; cbn [bind]; try discriminate. intros Q1. injection Q1 as <- <-. reflexivity. }
      pose proof (now_plant K dbg s tick cb pm pj (world m)) as [_ NP]. cbn [h_now sys_hooks] in NP |- *. rewrite NP. reflexivity. }
    rewrite <- AE. assert (PE : exists pe, sy_plant we = Ok pe).
    { destruct (attempt_out K dbg s tick cb pm pj _ _ _ _ _ _ _ _ M PM) as [[B _]|(t & w1 & B & _ & C & _)]; eauto.
      unfold H in C. cbn [h_pub_mech sys_hooks] in C. unfold sys_pub_mech in C. apply on_plant_ok in C. destruct C as (p & o & C & _). rewrite B in C. eauto. }
    destruct PE as [pe PE].
    destruct (mech_case K dbg s tick cb pm pj _ _ _ _ _ _ _ M PE PM) as [(_ & -> & _)|(t & m4 & js & acts & _ & _ & _ & _ & _ & _ & ->)]; auto.
    unfold joint_messages. rewrite flat_map_app. cbn [flat_map app]. apply app_nil_r. }
  destruct J as (t & w1 & E1 & D). unfold H in E1. cbn [h_now sys_hooks] in E1. destruct (QT _ Qm) as [_ Q2]. 
  destruct (tick (sy_user wm)) as [t' x'] eqn:TK. injection E1 as <- W1. cbn [fst] in Q2.
  destruct D as [(D & _ & _)|D].
  { cbn [andb] in D. apply Z.ltb_ge in D. unfold H in D. cbn [h_per_js sys_hooks] in D. lia. }
  assert (ATT : attempt H true (h_pub_js H) (last_js m) (h_per_js H) (last_js m') wm wj).
  { exists t', w1. split; [|right; exact D]. unfold H. cbn [h_now sys_hooks]. rewrite TK. subst w1. reflexivity. }
  destruct D as (D1 & D2 & D3).
  destruct (js_case K dbg s tick cb pm pj _ _ _ _ _ _ _ ATT PM PJ) as [(_ & _ & LJ & _)|(t2 & msg & _ & _ & _ & _ & _ & ->)].
  - exfalso. destruct (catch_up_inv _ _ _ _ _ D2) as (n & LJ2 & W2 & W3). unfold H in LJ2, W2. cbn [h_per_js sys_hooks] in LJ2, W2. lia.
  - exists t2, msg. unfold joint_messages in *. rewrite flat_map_app. cbn [flat_map app]. rewrite JM. reflexivity.
Qed.
End Generic2.

(** ** C60 *)
Theorem C60_loop_ends_iff : forall last per t,
  ((exists x, catch_up (catch_up_fuel last t) last per t = Ok x) <-> exists n : nat, (t <= last + Z.of_nat (S n) * per)%Z) /\
  ((forall n : nat, (last + Z.of_nat (S n) * per < t)%Z) <-> catch_up (catch_up_fuel last t) last per t = Hang).
Proof.
  intros last per t.
  assert (NP : (per <= 0)%Z -> (last + per < t)%Z -> forall f, catch_up f last per t = Hang).
  { intros NPER D f. revert last D. induction f as [|f IH]; intros last D; cbn [catch_up]; destruct (Z.ltb_spec (last + per) t); try lia; auto. apply IH. lia. }
  assert (CASES : (exists x, catch_up (catch_up_fuel last t) last per t = Ok x) /\ (exists n : nat, (t <= last + Z.of_nat (S n) * per)%Z) \/
                  catch_up (catch_up_fuel last t) last per t = Hang /\ forall n : nat, (last + Z.of_nat (S n) * per < t)%Z).
  { destruct (Z.leb_spec per 0) as [NPER|PPER].
    - destruct (Z.ltb_spec (last + per) t) as [D|D].
      + right. split; [apply NP; auto|]. intros n. nia.
      + left. split; [|exists 0; lia]. exists last. unfold catch_up_fuel. destruct (Z.to_nat (t - last)); cbn [catch_up]; destruct (Z.ltb_spec (last + per) t); try lia; reflexivity.
    - left. split; [apply catch_up_ok; [exact PPER|unfold catch_up_fuel; lia]|]. exists (Z.to_nat (t - last)). nia. }
  destruct CASES as [[A B]|[A B]]; split; split; intros C; auto.
  - exfalso. destruct B as [n B]. specialize (C n). lia.
  - exfalso. destruct A as [x A]. congruence.
  - exfalso. destruct C as [x C]. congruence.
  - exfalso. destruct C as [n C]. specialize (B n). lia.
Qed.

(** in exact arithmetic the configured period is zero exactly for rates above two per nanosecond *)
Theorem C60_zero_period_iff : forall rate : R,
  (publish_period rate = 0%Z <-> (2000000000 < rate)%R) /\ (0 <= publish_period rate)%Z.
Proof.
  intros rate. unfold publish_period, ros_duration. set (q := (1 / Rmax (1 / 1000000) rate)%R).
  assert (QP : (0 < q)%R). { unfold q. apply Rdiv_lt_0_compat; [lra|]. eapply Rlt_le_trans; [|apply Rmax_l]. lra. }
  assert (FN : (0 <= Zfloor q)%Z) by (apply Zfloor_lub; lra).
  pose proof (Zfloor_lb q) as LB. set (r := ((q - IZR (Zfloor q)) * 1000000000)%R).
  assert (RN : (0 <= r)%R) by (unfold r; nra).
  assert (NN : (0 <= ZnearestA r)%Z).
  { unfold Znearest. destruct (Rcompare _ _); try (destruct (Zle_bool 0 _)); try (apply Zfloor_lub; exact RN); apply le_IZR; eapply Rle_trans; [exact RN|apply Zceil_ub|exact RN|apply Zceil_ub]. }
  split; [|lia].
  assert (KEY : (Zfloor q * 1000000000 + ZnearestA r = 0)%Z <-> (q < 1 / 2000000000)%R).
  { split.
    - intros E. assert (F0 : Zfloor q = 0%Z) by lia. assert (N0 : ZnearestA r = 0%Z) by lia.
      assert (RQ : r = (q * 1000000000)%R) by (unfold r; rewrite F0; lra).
      destruct (Rlt_le_dec q (1 / 2000000000)) as [D|D]; auto. exfalso.
      assert (R2 : (/ 2 <= r)%R) by lra.
      unfold Znearest in N0. destruct (Rcompare_spec (r - IZR (Zfloor r)) (/ 2)) as [C|C|C].
      + assert (Zfloor r = 0%Z) by exact N0. rewrite H in C. lra.
      + assert (FR : Zfloor r = 0%Z). { destruct (Zle_bool 0 (Zfloor r)) eqn:ZL; [|apply Z.leb_gt in ZL; assert (0 <= Zfloor r)%Z by (apply Zfloor_lub; exact RN); lia].
          exfalso. assert (0 < Zceil r)%Z; [|lia]. apply lt_IZR. eapply Rlt_le_trans; [|apply Zceil_ub]. lra. }
        rewrite FR in *. cbn in N0. assert (0 < Zceil r)%Z; [|lia]. apply lt_IZR. eapply Rlt_le_trans; [|apply Zceil_ub]. lra.
      + assert (0 < Zceil r)%Z; [|lia]. apply lt_IZR. eapply Rlt_le_trans; [|apply Zceil_ub]. lra.
    - intros D. assert (F0 : Zfloor q = 0%Z). { apply Zfloor_imp. cbn. lra. }
      assert (RQ : r = (q * 1000000000)%R) by (unfold r; rewrite F0; lra). rewrite F0.
      assert (FR : Zfloor r = 0%Z) by (apply Zfloor_imp; cbn; lra).
      unfold Znearest. rewrite FR. rewrite Rcompare_Lt by (cbn; lra). reflexivity. }
  rewrite KEY. unfold q. split; intros D.
  - destruct (Rle_lt_dec rate 2000000000) as [C|C]; auto. exfalso.
    assert (M : (Rmax (1 / 1000000) rate <= 2000000000)%R) by (apply Rmax_lub; lra).
    assert (MP : (0 < Rmax (1 / 1000000) rate)%R) by (eapply Rlt_le_trans; [|apply Rmax_l]; lra).
    assert (1 / 2000000000 <= 1 / Rmax (1 / 1000000) rate)%R; [|lra]. clear - M MP. generalize dependent (Rmax (1 / 1000000) rate). intros y M MP. unfold Rdiv. rewrite !Rmult_1_l. apply Rinv_le; lra.
  - rewrite Rmax_right by lra. unfold Rdiv. rewrite !Rmult_1_l. apply Rinv_lt_contravar; nra.
Qed.

(** a due publication with period zero never returns *)
Theorem C60_zero_period_hangs : forall {W} (H : hooks W) m,
  h_per_js H = 0%Z -> (last_js m < fst (h_now H (world m)))%Z -> publishJointState H true m = Hang.
Proof.
  intros W H m P0 D. unfold publishJointState, now. destruct (h_now H (world m)) as [t w]. cbn [fst] in D. cbn [last_js set_world]. rewrite P0.
  destruct (Z.ltb_spec (last_js m + 0) t); [|lia].
  destruct (C60_loop_ends_iff (last_js m) 0 t) as [_ [A _]]. rewrite A; [reflexivity|]. intros n. lia.
Qed.

(** ** C39 in floating point: no joint effort beyond the limit is ever handed to a transmission *)
Lemma enforce_nan : forall j j' : jointstate B64, enforceLimits j = Ok j' -> not_nan (commanded_effort j') -> not_nan (commanded_effort j).
Proof.
  intros j j' E NN. unfold enforceLimits in E. destruct (getLimits j) as [[lo hi]| | |]; cbn [bind] in E; try discriminate. injection E as <-.
  unfold not_nan in *. cbn [commanded_effort set_commanded_effort] in NN.
  destruct (commanded_effort j) as [| | |] eqn:C; try reflexivity. exfalso. revert NN. cbn. destruct lo, hi; cbn; discriminate.
Qed.

Theorem C39_effort_within_limit : forall {Tr X} (K : tclass Tr B64) dbg s (tick : X -> Z * X) cb pm pj p0 m0 m p,
  starts p0 m0 -> history (sys_hooks K dbg s tick cb pm pj) m0 m -> sy_plant (world m) = Ok p ->
  forall ms ma k u sf lm, In (ms, ma) (sent (sy_out (world m))) -> k < rs_size s ->
  has_safety (m_js ms k) u sf lm -> fle f0 (lim_effort lm) -> not_nan (commanded_effort (m_js ms k)) ->
  fle (Bopp (lim_effort lm)) (commanded_effort (m_js ms k)) /\ fle (commanded_effort (m_js ms k)) (lim_effort lm).
Proof.
  intros Tr X K dbg s tick cb pm pj p0 m0 m p ST HI P ms ma k u sf lm IN L HS POS NN.
  destruct (C39_every_sent_effort_enforced K dbg s tick cb pm pj p0 m0 m p ST HI P ms ma k IN L) as [j E].
  assert (JJ : js_joint j = js_joint (m_js ms k)).
  { unfold enforceLimits in E. destruct (getLimits j) as [[lo hi]| | |]; cbn [bind] in E; try discriminate. injection E as <-. reflexivity. }
  assert (HS' : has_safety j u sf lm) by (unfold has_safety in *; rewrite JJ; exact HS).
  destruct (C30_effort_within_limit j _ u sf lm HS' POS (enforce_nan _ _ E NN) E) as (A & B & _). auto.
Qed.

(** ** The built-in transmissions *)
Section Whole.
Context {T X : Type} {N : Num T} {G : Trig T}.
Variables (dbg : bool) (P : parsers T) (L : loader (transmission T)).
Hypothesis HL : forall c t, ld_create L c = Some t -> is_new t.
Notation K := (builtin dbg P).
Variables (urdf : xml -> option (string -> option (ujoint T))) (config : xml) (g : T) (hw : hwif) (mem0 : mem T) (s : rstate) (p0 : plant (transmission T) T).
Hypothesis HI : cm_initXml K dbg L urdf config g hw mem0 = Ok (Some (s, p0)).
Hypothesis HU : forall e, In e (ChildElements config "transmission") -> usable L e.
Variables (tick : X -> Z * X) (cb : ptr -> callback -> X -> mem T -> X * mem T) (pm pj : Z).
Hypothesis HC : keeps_joints cb.
Hypothesis HP : (0 < pm)%Z /\ (0 < pj)%Z.
Let H : hooks (sysw (transmission T) T X) := sys_hooks K dbg s tick cb pm pj.

Definition fine_plant (p : plant (transmission T) T) : Prop :=
  (all_fit false dbg P (pl_ts p) (rs_in s) (rs_out s) /\ (forall o q, In o (rs_out s) -> In q o -> q < rs_size s) /\ Forall2 same_parameters (pl_ts p0) (pl_ts p)) /\
  (published_joints (pl_mem p) (seq 0 (rs_size s)) /\ same_joints (pl_mem p0) (pl_mem p)) /\ pl_hw p = actuators hw /\
  List.length (pl_astats p) = List.length (actuators hw) /\ List.length (pl_jstats p) = rs_size s /\
  List.length (jm_name (pl_js p)) = rs_size s /\ List.length (jm_position (pl_js p)) = rs_size s /\
  List.length (jm_velocity (pl_js p)) = rs_size s /\ List.length (jm_effort (pl_js p)) = rs_size s.

Lemma fine_start : fine_plant p0.
Proof.
  unfold cm_initXml in HI. destruct (robot_initXml K L urdf config _ _) as [[[b r] acts]| | |] eqn:RI; cbn [bind] in HI; try discriminate.
  destruct b; cbn [negb] in HI; [|discriminate].
  destruct (new_robotstate K dbg g r _) as [[s' m1]| | |] eqn:NR; cbn [bind] in HI; try discriminate.
  destruct (check_types m1 _) as [ok| | |] eqn:CT; cbn [bind] in HI; try discriminate. destruct ok; cbn [negb] in HI; [|discriminate].
  assert (E1 : s' = s) by congruence. rewrite E1 in *. clear E1. assert (E2 := HI). injection E2 as E2. assert (TS0 : pl_ts p0 = rb_transmissions r) by (rewrite <- E2; reflexivity). assert (ME0 : pl_mem p0 = m1) by (rewrite <- E2; reflexivity). rewrite <- E2. clear E2.
  destruct (loaded_fit dbg P L HL false _ _ _ _ _ _ _ _ _ _ RI HU ltac:(discriminate) NR) as (FIT & JN & _ & OUT).
  assert (RL : forall A (d : A) n, List.length (resize d n []) = n).
  { intros A d n. unfold resize. rewrite firstn_nil. cbn [app List.length]. rewrite repeat_length. lia. }
  unfold fine_plant. cbn [pl_ts pl_mem pl_hw pl_astats pl_jstats pl_js jm_name jm_position jm_velocity jm_effort]. rewrite !RL, TS0, ME0.
  split; [split; [exact FIT|split; [exact OUT|apply same_parameters_all]]|]. split; [split; [|apply same_joints_refl]|repeat split].
  clear - CT. revert CT. generalize (seq 0 (rs_size s)). induction l as [|i ids IH]; cbn [check_types]; intros CT k I; [destruct I|].
  destruct (js_joint (m_js m1 i)) as [u|] eqn:J; [|discriminate]. destruct (is_published (uj_type u)) eqn:U; [|discriminate].
  destruct I as [<-|I]; [eauto|]. apply IH; auto.
Qed.

Lemma fine_mem p m : fine_plant p -> same_joints (pl_mem p) m -> fine_plant (set_pl_mem m p).
Proof.
  intros (A & (B & BJ) & C) S. split; [exact A|]. split; [split; [|eapply same_joints_trans; eauto]|exact C]. intros k I. destruct (B k I) as (u & J & U). exists u. cbn [pl_mem set_pl_mem]. rewrite S. auto.
Qed.

Lemma fine_op o p : fine_plant p -> fair_op o -> ~ simulator_op o -> exists ts m, run_ops K s [o] (pl_ts p) (pl_mem p) = Ok (ts, m) /\ fine_plant (set_pl_ts ts (set_pl_mem m p)).
Proof.
  intros F FO NS. assert (F' := F). destruct F' as ((A & OUT & SP) & (B & BJ) & C).
  destruct (run_ops_fine dbg P false s [o] (pl_ts p) (pl_mem p) A OUT) as (ts & m & E & A' & PA & S).
  { intros k I. destruct (B k I) as (u & J & _). congruence. }
  { constructor; [exact FO|constructor]. }
  { constructor; [intros SO; destruct (NS SO)|constructor]. }
  exists ts, m. split; [exact E|]. destruct (fine_mem p m F S) as (_ & D & Q). split; [|split; [exact D|exact Q]].
  split; [exact A'|]. split; [exact OUT|]. eapply same_parameters_all_trans; eauto.
Qed.

Lemma fine_propagate w p : sy_plant w = Ok p -> fine_plant p -> exists p', sy_plant (h_propagate H w) = Ok p' /\ fine_plant p'.
Proof.
  intros E F. destruct (fine_op OpPosition p F I (fun x => x)) as (ts & m & R & F'). cbn [run_ops] in R. unfold H. cbn [h_propagate sys_hooks]. unfold sys_propagate, on_plant. rewrite E.
  destruct (propagateActuatorPositionToJointPosition K s (pl_ts p) (pl_mem p)) as [[ts1 m1]| | |]; cbn [bind] in R |- *; try discriminate.
  injection R as -> ->. eexists. split; [reflexivity|exact F'].
Qed.
Lemma fine_zero w p : sy_plant w = Ok p -> fine_plant p -> exists p', sy_plant (h_zero H w) = Ok p' /\ fine_plant p'.
Proof.
  intros E F. destruct (fine_op OpZero p F I (fun x => x)) as (ts & m & R & F'). cbn [run_ops] in R. unfold H. cbn [h_zero sys_hooks]. unfold sys_zero, on_plant. rewrite E.
  destruct (zeroCommands s (pl_mem p)) as [m1| | |]; cbn [bind] in R |- *; try discriminate.
  injection R as <- ->. eexists. split; [reflexivity|exact F'].
Qed.
Lemma fine_enforce w p : sy_plant w = Ok p -> fine_plant p -> exists p', sy_plant (h_enforce H w) = Ok p' /\ fine_plant p'.
Proof.
  intros E F. destruct (fine_op OpEnforce p F I (fun x => x)) as (ts & m & R & F'). cbn [run_ops] in R. unfold H. cbn [h_enforce sys_hooks]. unfold sys_enforce, on_plant. rewrite E.
  destruct (enforceSafety s (pl_mem p)) as [m1| | |]; cbn [bind] in R |- *; try discriminate.
  injection R as <- ->. eexists. split; [reflexivity|exact F'].
Qed.
Lemma fine_effort w p : sy_plant w = Ok p -> fine_plant p -> exists p', sy_plant (h_effort H w) = Ok p' /\ fine_plant p'.
Proof.
  intros E F. destruct (fine_op OpEffort p F I (fun x => x)) as (ts & m & R & F'). cbn [run_ops] in R. unfold H. cbn [h_effort sys_hooks]. unfold sys_effort, on_plant. rewrite E.
  destruct (propagateJointEffortToActuatorEffort K s (pl_ts p) (pl_mem p)) as [[ts1 m1]| | |]; cbn [bind] in R |- *; try discriminate.
  injection R as -> ->. eexists. split; [reflexivity|exact F'].
Qed.
Lemma fine_acts cbs w w' p : acts H cbs w w' -> sy_plant w = Ok p -> fine_plant p -> exists p', sy_plant w' = Ok p' /\ fine_plant p'.
Proof.
  intros A E F. destruct (acts_plant K dbg s tick cb pm pj _ _ _ A _ E) as (m & Q & WR). exists (set_pl_mem m p). split; [exact Q|].
  apply fine_mem; auto. intros k. eapply written_joints; eauto.
Qed.

(** what the two publications do to a fine plant *)
Lemma fine_js t w p : sy_plant w = Ok p -> fine_plant p -> exists msg,
  fill_joint_state dbg (pl_mem p) (seq 0 (rs_size s)) 0 (pl_js p) = Ok msg /\
  snapshot_message (rs_size s) (pl_mem p) msg /\
  sy_plant (h_pub_js H t w) = Ok (mkPlant (pl_ts p) (pl_mem p) (pl_hw p) msg (pl_jstats p) (pl_astats p)) /\
  fine_plant (mkPlant (pl_ts p) (pl_mem p) (pl_hw p) msg (pl_jstats p) (pl_astats p)).
Proof.
  intros E (A & (B & BJ) & C & D & F & J1 & J2 & J3 & J4). set (n := rs_size s) in *.
  assert (FS := fill_joint_state_spec dbg (pl_mem p) (seq 0 n) [] [] [] [] (jm_name (pl_js p)) (jm_position (pl_js p)) (jm_velocity (pl_js p)) (jm_effort (pl_js p)) B eq_refl eq_refl eq_refl).
  rewrite !seq_length in FS. specialize (FS J1 J2 J3 J4). cbn [app List.length] in FS.
  assert (MS : mkJmsg (jm_name (pl_js p)) (jm_position (pl_js p)) (jm_velocity (pl_js p)) (jm_effort (pl_js p)) = pl_js p) by (destruct (pl_js p); reflexivity).
  rewrite MS in FS. eexists. split; [exact FS|]. split; [|split].
  - unfold snapshot_message. cbn [jm_name jm_position jm_velocity jm_effort]. rewrite !map_length, !seq_length. repeat (split; [reflexivity|]).
    intros k LT. assert (NS : nth_error (seq 0 n) k = Some k).
    { rewrite (nth_error_nth' _ 0) by (rewrite seq_length; exact LT). f_equal. rewrite seq_nth by exact LT. reflexivity. }
    destruct (B k) as (u & J & _); [apply in_seq; lia|]. exists u. split; [exact J|]. unfold reports_joint. cbn [jm_name jm_position jm_velocity jm_effort].
    rewrite !(map_nth_error _ _ _ NS). unfold jname. rewrite J. repeat split.
  - unfold H. cbn [h_pub_js sys_hooks]. unfold sys_pub_js, on_plant. rewrite E. fold n. rewrite FS. reflexivity.
  - unfold fine_plant. cbn [pl_ts pl_mem pl_hw pl_astats pl_jstats pl_js jm_name jm_position jm_velocity jm_effort]. rewrite !map_length, !seq_length. split; [assumption|]. split; [split; assumption|]. repeat (split; [assumption|]). repeat split.
Qed.
Lemma fine_mech t w p : sy_plant w = Ok p -> fine_plant p -> exists m js acts,
  fill_joint_stats dbg t (seq 0 (rs_size s)) 0 (pl_mem p) (pl_jstats p) = Ok (m, js) /\
  fill_actuator_stats m (pl_hw p) 0 (pl_astats p) = Ok acts /\
  snapshot_statistics (rs_size s) (actuators hw) (pl_mem p) t js acts /\
  m_act m = m_act (pl_mem p) /\
  (forall k, k < rs_size s -> m_js m k = set_joint_statistics (stats_reset (joint_statistics (m_js (pl_mem p) k))) (m_js (pl_mem p) k)) /\
  sy_plant (h_pub_mech H t w) = Ok (mkPlant (pl_ts p) m (pl_hw p) (pl_js p) js acts) /\
  fine_plant (mkPlant (pl_ts p) m (pl_hw p) (pl_js p) js acts).
Proof.
  intros E (A & (B & BJ) & C & D & F & J). set (n := rs_size s) in *.
  destruct (fill_joint_stats_spec dbg t (seq 0 n) (pl_mem p) [] (pl_jstats p) (seq_NoDup _ _) B) as (m & js & FS & F2 & MA & MJ & MO); [rewrite seq_length; exact F|].
  cbn [app List.length] in FS.
  destruct (fill_actuator_stats_spec m (pl_hw p) [] (pl_astats p)) as (acts & FA & F3); [rewrite C; exact D|]. cbn [app List.length] in FA.
  exists m, js, acts. split; [exact FS|]. split; [exact FA|].
  assert (LJ : List.length js = n) by (rewrite <- (Forall2_length _ _ _ F2), seq_length; reflexivity).
  assert (LA : List.length acts = List.length (actuators hw)) by (rewrite (Forall2_length _ _ _ F3), C; reflexivity).
  split; [|split; [exact MA|split; [|split]]].
  - split; [exact LJ|]. split.
    + intros k LT. assert (NS : nth_error (seq 0 n) k = Some k).
      { rewrite (nth_error_nth' _ 0) by (rewrite seq_length; exact LT). f_equal. rewrite seq_nth by exact LT. reflexivity. }
      clear - F2 NS. revert k NS. generalize (seq 0 n) F2. clear. intros l F2. induction F2 as [|x st l js (u & J & RJ) F2 IH]; intros k NS.
      * destruct k; discriminate.
      * assert (GEN : forall i k, nth_error (x :: l) i = Some k -> exists u st0, js_joint (m_js (pl_mem p) k) = Some u /\ nth_error (st :: js) i = Some st0 /\ reports_joint_statistics st0 t u (m_js (pl_mem p) k)).
        { clear NS k. clear IH. intros i. revert x st J RJ l js F2. induction i as [|i IHi]; intros x st J RJ l js F2 k E; cbn [nth_error] in E.
          - injection E as <-. exists u, st. auto.
          - destruct F2 as [|x' st' l' js' (u' & J' & RJ') F2]; [destruct i; discriminate|]. cbn [nth_error].
            revert E. clear - F2 J' RJ'. revert x' st' u' J' RJ' l' js' F2. induction i as [|i IHi]; intros x' st' u' J' RJ' l' js' F2 E; cbn [nth_error] in E |- *.
            + injection E as <-. eauto.
            + destruct F2 as [|x2 st2 l2 js2 (u2 & J2 & RJ2) F2]; [destruct i; discriminate|]. eapply IHi; eauto. }
        apply (GEN k k NS).
    + rewrite C in F3. rewrite <- MA. exact F3.
  - intros k LT. apply MJ. apply in_seq. lia.
  - unfold H. cbn [h_pub_mech sys_hooks]. unfold sys_pub_mech, on_plant. rewrite E. fold n. rewrite FS. cbn [bind]. rewrite FA. reflexivity.
  - unfold fine_plant. cbn [pl_ts pl_mem pl_hw pl_astats pl_jstats pl_js jm_name jm_position jm_velocity jm_effort]. fold n. split; [exact A|]. split; [split|repeat (split; [assumption|]); exact J].
    + intros k I. destruct (B k I) as (u & J1 & U). exists u. rewrite (MJ k I). auto.
    + eapply same_joints_trans; [exact BJ|]. intros k. destruct (in_dec Nat.eq_dec k (seq 0 n)) as [I|I]; [rewrite (MJ k I); reflexivity|rewrite (MO k I); reflexivity].
Qed.

Lemma fine_attempt_js l last last' w w' p : attempt H l (h_pub_js H) last pj last' w w' -> sy_plant w = Ok p -> fine_plant p ->
  exists p', sy_plant w' = Ok p' /\ fine_plant p'.
Proof.
  intros (t & w1 & E & D) Q F. pose proof (now_plant K dbg s tick cb pm pj w) as [A _]. fold H in A. rewrite E in A. cbn [snd] in A. rewrite Q in A.
  destruct D as [(_ & -> & _)|(_ & _ & A1)]; [eauto|]. destruct (fine_js t w1 p A F) as (msg & _ & _ & B & C). eapply fine_acts; eauto.
Qed.
Lemma fine_attempt_mech l last last' w w' p : attempt H l (h_pub_mech H) last pm last' w w' -> sy_plant w = Ok p -> fine_plant p ->
  exists p', sy_plant w' = Ok p' /\ fine_plant p'.
Proof.
  intros (t & w1 & E & D) Q F. pose proof (now_plant K dbg s tick cb pm pj w) as [A _]. fold H in A. rewrite E in A. cbn [snd] in A. rewrite Q in A.
  destruct D as [(_ & -> & _)|(_ & _ & A1)]; [eauto|]. destruct (fine_mech t w1 p A F) as (m & js & acts & _ & _ & _ & _ & _ & B & C). eapply fine_acts; eauto.
Qed.

Lemma fine_update l1 l2 m m' p : update H l1 l2 m = Ok m' -> sy_plant (world m) = Ok p -> fine_plant p -> exists p', sy_plant (world m') = Ok p' /\ fine_plant p'.
Proof.
  intros E Q F. destruct (update_world H l1 l2 m m' E) as (cbs & wb & we & wm & wj & cbs' & rest & A1 & A2 & M & J & A3 & TR).
  pose proof (now_plant K dbg s tick cb pm pj (world m)) as [B0 _]. fold H in B0. rewrite Q in B0.
  destruct (fine_propagate _ _ B0 F) as (p1 & B1 & F1). destruct (fine_zero _ _ B1 F1) as (p2 & B2 & F2).
  destruct (fine_acts _ _ _ _ A1 B2 F2) as (p3 & B3 & F3). destruct (fine_enforce _ _ B3 F3) as (p4 & B4 & F4). destruct (fine_effort _ _ B4 F4) as (p5 & B5 & F5).
  destruct (fine_acts _ _ _ _ A2 B5 F5) as (p6 & B6 & F6). destruct (fine_attempt_mech _ _ _ _ _ _ M B6 F6) as (p7 & B7 & F7).
  destruct (fine_attempt_js _ _ _ _ _ _ J B7 F7) as (p8 & B8 & F8). eapply fine_acts; eauto.
Qed.

Lemma fine_history m0 m : starts p0 m0 -> history H m0 m -> reachable H m /\ exists p, sy_plant (world m) = Ok p /\ fine_plant p.
Proof.
  intros ST HH. induction HH as [|m o a m' HH [RE (p & Q & F)] OO S].
  - destruct ST as (A & B & _). split; [apply reach_init; exact A|]. exists p0. split; [exact B|apply fine_start].
  - split; [eapply reach_step; eauto|]. destruct o as [env name|name|st sp kk|l1 l2|f|].
    4:{ pose proof (service_world H m _ a m' S) as U. cbn in U. eapply fine_update; eauto. }
    all: destruct (service_case K dbg s tick cb pm pj _ _ _ _ S OO ltac:(discriminate)) as (_ & _ & _ & _ & KK);
      destruct (KK HC _ Q) as (mm & Q' & SJ); exists (set_pl_mem mm p); (split; [exact Q'|]); apply fine_mem; auto.
Qed.

(** ** C66: the whole system.  After a successful initXml with usable transmissions, in every history of services, cycles,
    controllers writing what they like and hardware doing what it likes, the plant never crashes and the next control cycle
    completes. *)
Theorem C66_system_never_crashes : forall m0 m l1 l2, starts p0 m0 -> history H m0 m ->
  exists p m' p', sy_plant (world m) = Ok p /\ update H l1 l2 m = Ok m' /\ sy_plant (world m') = Ok p'.
Proof.
  intros m0 m l1 l2 ST HH. destruct (fine_history m0 m ST HH) as (RE & p & Q & F).
  destruct (C17_cycle_events H HP l1 l2 m RE) as (m' & rs & pubs & E & _).
  destruct (fine_update _ _ _ _ _ E Q F) as (p' & Q' & _). eauto 8.
Qed.

(** ** C68: the messages of a cycle.  After the efforts were sent, at most one statistics message and at most one joint state
    message are published; they report exactly the joints and actuators as they were right after sending, and publishing the
    statistics resets them. *)
Theorem C68_messages : forall m0 m m' l1 l2, starts p0 m0 -> history H m0 m -> update H l1 l2 m = Ok m' ->
  exists ms ma stats joints mq cbs p',
    sy_out (world m') = sy_out (world m) ++ [OutEffort ms ma] ++ stats ++ joints /\
    (stats = [] \/ exists t js acts, stats = [OutStats t js acts] /\ snapshot_statistics (rs_size s) (actuators hw) ma t js acts) /\
    (joints = [] \/ exists t msg, joints = [OutJoints t msg] /\ snapshot_message (rs_size s) ma msg) /\
    (forall k, k < rs_size s -> m_js mq k =
       match stats with [] => m_js ma k | _ => set_joint_statistics (stats_reset (joint_statistics (m_js ma k))) (m_js ma k) end) /\
    sy_plant (world m') = Ok p' /\ written cb cbs mq (pl_mem p').
Proof.
  intros m0 m m' l1 l2 ST HH E. destruct (fine_history m0 m ST HH) as (RE & p & Q & F).
  destruct (fine_update _ _ _ _ _ E Q F) as (p' & Q' & F').
  destruct (cycle K dbg s tick cb pm pj l1 l2 m m' p' E Q') as (q & ts1 & m1 & m2 & cbs & mb & ms & ts2 & ma & wm & wj & pm1 & pj1 & cbs' & rest & Qq & PR & ZE & WR & EN & EF & _ & we & PE & OE & M & J & PM & PJ & _ & OJ & WR2).
  assert (FE : fine_plant (mkPlant ts2 ma (pl_hw q) (pl_js q) (pl_jstats q) (pl_astats q))).
  { destruct (update_world H l1 l2 m m' E) as (cb1 & wb & we' & wm' & wj' & cb2 & rest' & A1 & A2 & _).
    rewrite Q in Qq. injection Qq as <-.
    destruct (fine_op OpPosition p F I (fun x => x)) as (t1 & x1 & R1 & F1). cbn [run_ops] in R1. rewrite PR in R1. cbn [bind] in R1. injection R1 as <- <-.
    destruct (fine_op OpZero _ F1 I (fun x => x)) as (t2 & x2 & R2 & F2). cbn [run_ops pl_mem set_pl_mem set_pl_ts pl_ts] in R2. rewrite ZE in R2. cbn [bind] in R2. injection R2 as <- <-.
    assert (F3 := fine_mem _ mb F2 (written_joints cb cbs _ _ HC WR)).
    destruct (fine_op OpEnforce _ F3 I (fun x => x)) as (t4 & x4 & R4 & F4). cbn [run_ops pl_mem set_pl_mem set_pl_ts pl_ts] in R4. rewrite EN in R4. cbn [bind] in R4. injection R4 as <- <-.
    destruct (fine_op OpEffort _ F4 I (fun x => x)) as (t5 & x5 & R5 & F5). cbn [run_ops pl_mem set_pl_mem set_pl_ts pl_ts] in R5. rewrite EF in R5. cbn [bind] in R5. injection R5 as <- <-.
    exact F5. }
  set (pe := mkPlant ts2 ma (pl_hw q) (pl_js q) (pl_jstats q) (pl_astats q)) in *.
  assert (MA : pl_mem pe = ma) by reflexivity. clearbody pe.
  destruct (mech_case K dbg s tick cb pm pj _ _ _ _ _ _ _ M PE PM) as [(-> & OM & _)|(t & m4 & js & acts & _ & _ & _ & FJ & FA & -> & OM)].
  - destruct (js_case K dbg s tick cb pm pj _ _ _ _ _ _ _ J PM PJ) as [(-> & OJ2 & _)|(t2 & msg & _ & _ & _ & FM & -> & OJ2)].
    + exists ms, ma, [], [], ma, cbs', p'. rewrite OJ, OJ2, OM, OE. cbn [app]. split; [reflexivity|]. split; [auto|]. split; [auto|]. split; [auto|].
      split; [exact Q'|]. rewrite MA in WR2. exact WR2.
    + destruct (fine_js t2 we pe PE FE) as (msg' & FM' & SN & _). rewrite FM in FM'. injection FM' as <-.
      exists ms, ma, [], [OutJoints t2 msg], ma, cbs', p'. rewrite OJ, OJ2, OM, OE, <- app_assoc. split; [reflexivity|]. split; [auto|]. rewrite MA in SN, WR2.
      split; [right; eauto|]. split; [auto|]. split; [exact Q'|exact WR2].
  - destruct (fine_mech t we pe PE FE) as (m4' & js' & acts' & FJ' & FA' & SN & A4 & MJ & _ & F4). rewrite FJ in FJ'. injection FJ' as <- <-. rewrite FA in FA'. injection FA' as <-.
    rewrite MA in SN, A4, MJ.
    destruct (js_case K dbg s tick cb pm pj _ _ _ _ _ _ _ J PM PJ) as [(-> & OJ2 & _)|(t2 & msg & _ & _ & _ & FM & -> & OJ2)].
    + exists ms, ma, [OutStats t js acts], [], m4, cbs', p'. rewrite OJ, OJ2, OM, OE, <- app_assoc. split; [reflexivity|].
      split; [right; eauto 6|]. split; [auto|]. split; [exact MJ|]. split; [exact Q'|exact WR2].
    + destruct (fine_js t2 wm _ PM F4) as (msg' & FM' & SN2 & _). rewrite FM in FM'. injection FM' as <-. cbn [pl_mem] in SN2, WR2.
      exists ms, ma, [OutStats t js acts], [OutJoints t2 msg], m4, cbs', p'. rewrite OJ, OJ2, OM, OE, <- !app_assoc. split; [reflexivity|].
      split; [right; eauto 6|]. split; [|split; [exact MJ|split; [exact Q'|exact WR2]]]. right. exists t2, msg. split; [reflexivity|].
      destruct SN2 as (S1 & S2 & S3 & S4 & S5). repeat (split; [assumption|]). intros k LT. destruct (S5 k LT) as (u & JJ & RJ).
      rewrite (MJ k LT) in JJ, RJ. exists u. split; [exact JJ|]. exact RJ.
Qed.

(** ... but an actuator registered after initXml makes the next statistics publication write out of bounds. *)
Theorem C68_late_actuator_undefined : forall m0 m name a hw' t (w : sysw (transmission T) T X) p,
  starts p0 m0 -> history H m0 m -> sy_plant (world m) = Ok p -> addActuator name a hw = (hw', true) ->
  sy_plant w = Ok (mkPlant (pl_ts p) (pl_mem p) (actuators hw') (pl_js p) (pl_jstats p) (pl_astats p)) ->
  sy_plant (h_pub_mech H t w) = UB.
Proof.
  intros m0 m1 name a hw' t w p ST HH QP AD E. destruct (fine_history m0 m1 ST HH) as (_ & p1 & Q1 & F). rewrite QP in Q1. injection Q1 as <-.
  assert (LEN : List.length (actuators hw') = S (List.length (actuators hw))).
  { unfold addActuator in AD. destruct (map_insert name a (actuators hw)) as [mm b] eqn:MI. injection AD as <- ->. cbn [actuators set_actuators].
    clear - MI. revert mm MI. generalize (actuators hw). induction c as [|[k q] c IH]; intros mm MI; cbn [map_insert] in MI; [injection MI as <-; reflexivity|].
    destruct (String.compare name k); [discriminate|injection MI as <-; reflexivity|].
    destruct (map_insert name a c) as [r b] eqn:MR. injection MI as <- ->. cbn [List.length]. rewrite (IH r eq_refl). reflexivity. }
  destruct F as (A & (B & BJ) & C & D & J1 & J2). unfold H. cbn [h_pub_mech sys_hooks]. unfold sys_pub_mech, on_plant. rewrite E. cbn [pl_mem pl_jstats pl_hw pl_astats].
  destruct (fill_joint_stats_spec dbg t (seq 0 (rs_size s)) (pl_mem p) [] (pl_jstats p) (seq_NoDup _ _) B) as (m & js & FS & _); [rewrite seq_length; exact J1|].
  cbn [app List.length] in FS. rewrite FS. cbn [bind].
  assert (U := fill_actuator_stats_short m (actuators hw') [] (pl_astats p)). cbn [app List.length] in U. rewrite U by lia. reflexivity.
Qed.
(** Everything a history ever sent to the motors was computed by the transmissions that were loaded, from the efforts after
    limit enforcement. *)
Lemma sent_by : forall m0 m, starts p0 m0 -> history H m0 m -> forall ms ma, In (ms, ma) (sent (sy_out (world m))) ->
  exists ts ts', all_fit false dbg P ts (rs_in s) (rs_out s) /\ Forall2 same_parameters (pl_ts p0) ts /\ same_joints (pl_mem p0) ms /\
    (forall k, k < rs_size s -> exists j, enforceLimits j = Ok (m_js ms k)) /\
    propagateJointEffortToActuatorEffort K s ts ms = Ok (ts', ma).
Proof.
  intros m0 m ST HH. induction HH as [|m o a m' HH IH OO S]; intros ms ma IN.
  - destruct ST as (_ & _ & E). rewrite E in IN. destruct IN.
  - destruct o as [env name|name|st sp kk|l1 l2|f|].
    4:{ pose proof (service_world H m _ a m' S) as U. cbn in U. destruct (fine_history m0 m ST HH) as (RE & p & Q & F).
        destruct (fine_update _ _ _ _ _ U Q F) as (p' & Q' & F').
        destruct (cycle K dbg s tick cb pm pj l1 l2 m m' p' U Q') as (q & ts1 & m1 & m2 & cbs & mb & ms' & ts2 & ma' & wm & wj & pm1 & pj1 & cbs' & rest & Qq & PR & ZE & WR & EN & EF & _ & we & PE & OE & M & J & PM & PJ & _ & OJ & WR2).
        rewrite Q in Qq. injection Qq as <-.
        assert (SE : sent (sy_out (world m')) = sent (sy_out (world m)) ++ [(ms', ma')]).
        { rewrite OJ. destruct (js_case K dbg s tick cb pm pj _ _ _ _ _ _ _ J PM PJ) as [(_ & -> & _)|(t & msg & _ & _ & _ & _ & _ & ->)];
          destruct (mech_case K dbg s tick cb pm pj _ _ _ _ _ _ _ M PE PM) as [(_ & -> & _)|(t' & m4 & js & acts & _ & _ & _ & _ & _ & _ & ->)];
          rewrite OE, !sent_app; cbn [sent flat_map app]; rewrite ?app_nil_r; reflexivity. }
        rewrite SE in IN. apply in_app_or in IN. destruct IN as [IN|[IN|[]]]; [apply IH; exact IN|]. injection IN as <- <-.
        destruct (fine_op OpPosition p F I (fun x => x)) as (t1 & x1 & R1 & F1). cbn [run_ops] in R1. rewrite PR in R1. cbn [bind] in R1. injection R1 as <- <-.
        destruct (fine_op OpZero _ F1 I (fun x => x)) as (t2 & x2 & R2 & F2). cbn [run_ops pl_mem set_pl_mem set_pl_ts pl_ts] in R2. rewrite ZE in R2. cbn [bind] in R2. injection R2 as <- <-.
        assert (F3 := fine_mem _ mb F2 (written_joints cb cbs _ _ HC WR)).
        destruct (fine_op OpEnforce _ F3 I (fun x => x)) as (t4 & x4 & R4 & F4). cbn [run_ops pl_mem set_pl_mem set_pl_ts pl_ts] in R4. rewrite EN in R4. cbn [bind] in R4. injection R4 as <- <-.
        destruct F4 as ((FT & _ & SP) & (_ & SJ) & _). cbn [pl_ts pl_mem set_pl_mem set_pl_ts] in FT, SP, SJ.
        exists ts1, ts2. split; [exact FT|]. split; [exact SP|]. split; [exact SJ|]. split; [|exact EF].
        intros k LT. exists (m_js mb k). apply (enforce_spec s _ _ EN). exact LT. }
    all: destruct (service_case K dbg s tick cb pm pj _ _ _ _ S OO ltac:(discriminate)) as (SO & _); rewrite SO in IN; apply IH; exact IN.
Qed.
End Whole.

(** ** Concrete systems *)
Lemma exec_history {Tr T X} (H : hooks (sysw Tr T X)) m0 os : forall m m', Forall outside_op os -> history H m0 m -> exec H os m = Some m' -> history H m0 m'.
Proof.
  induction os as [|o os IH]; intros m m' OO HH E; cbn [exec] in E; [congruence|]. inversion OO as [|? ? O1 O2]; subst.
  destruct o as [env n|n|a b k|l1 l2|f|].
  - destruct (please m) eqn:Ep; [discriminate|].
    destruct (loadController H env n m) as [[a m1]| | |] eqn:E1; try discriminate.
    apply (IH m1 m'); auto. apply (hist_step H m0 m (OpLoad env n) a m1); auto. rewrite <- E1. now constructor.
  - destruct (please m) eqn:Ep; [discriminate|].
    destruct (unloadController n m) as [[a m1]| | |] eqn:E1; try discriminate.
    apply (IH m1 m'); auto. apply (hist_step H m0 m (OpUnload n) a m1); auto. rewrite <- E1. now constructor.
  - destruct (please m) eqn:Ep; [discriminate|].
    pose proof (step_switch H m a b k Ep) as Hs.
    destruct (switch_body a b k m) as [m1|m1|m1|]; try discriminate;
      (apply (IH m1 m'); auto; eapply hist_step; [exact HH|exact O1|exact Hs]).
  - pose proof (step_update H m l1 l2) as Hs.
    destruct (update H l1 l2 m) as [m1| | |]; try discriminate.
    cbn [bind] in *. apply (IH m1 m'); auto. eapply hist_step; [exact HH|exact O1|exact Hs].
  - apply (IH _ m') in E; auto. eapply hist_step; [exact HH|exact O1|constructor].
  - destruct (please m) eqn:Ep; [discriminate|]. destruct (lists m (cur m)) eqn:El; [|discriminate].
    apply (IH _ m') in E; auto. eapply hist_step; [exact HH|exact O1|now constructor].
Qed.

(** One joint and one actuator in binary64, a direct-drive transmission, a clock that advances 2 ns at every reading, periods
    of 45 ns and 25 ns for the two messages, and controllers that write a commanded effort of 100 (the limit is 30) when updated. *)
Definition exd_class : tclass unit B64 :=
  mkTclass (fun _ => "direct") (fun _ => ["m"]) (fun _ => ["shoulder"])
    (fun _ _ h t => Ok (Some t, h))
    (fun t a j m => match a, j with [a], [j] => Ok (t, js_upd j (fun x => set_position (a_position (m_act m a)) x) m) | _, _ => UB end)
    (fun _ t _ _ m => Ok (t, m))
    (fun t a j m => match a, j with [a], [j] => Ok (t, act_upd a (set_a_effort (commanded_effort (m_js m j))) m) | _, _ => UB end)
    (fun t _ _ m => Ok (t, m)).
Definition exd_tick (x : Z) : Z * Z := (x, x + 2)%Z.
Definition exd_cb (p : ptr) (k : callback) (x : Z) (m : mem B64) : Z * mem B64 :=
  match k with CbUpdate => (x, js_upd 0 (set_commanded_effort (nofZ 100)) m) | _ => (x, m) end.
Definition exd_state : rstate := mkRstate 1 [[0]] [[0]] [("shoulder", 0)].
Definition exd_mem : mem B64 := mkMem (fun _ => set_a_position (nofZ 1) (new_actuator nzero)) (fun _ => exJS (nofZ 0) (nofZ 0) (nofZ 5)).
Definition exd_plant : plant unit B64 :=
  mkPlant [tt] exd_mem [("m", 0)] (mkJmsg [""%string] [nzero] [nzero] [nzero]) [jstat0] [astat0].
Definition exd_hooks : hooks (sysw unit B64 Z) := sys_hooks exd_class true exd_state exd_tick exd_cb 45%Z 25%Z.
Definition exd0 : mgr (sysw unit B64 Z) :=
  mkMgr (fun _ => mkObj "" CONSTRUCTED no_deps new_stats) 0 (fun _ => []) (fun _ => []) false None [] [] false true
    [] 0%Z 0%Z (mkSysw (Ok exd_plant) 3%Z []) [].
Definition exd_ops : list (op (W:=sysw unit B64 Z)) :=
  [OpLoad exEnv "a"; OpUpdate true true; OpSwitch ["a"] [] STRICT; OpUpdate true true; OpUpdate true true; OpUpdate true true].
Definition exd1 : mgr (sysw unit B64 Z) := match exec exd_hooks exd_ops exd0 with Some m => m | None => exd0 end.
Lemma exd1_history : starts exd_plant exd0 /\ history exd_hooks exd0 exd1.
Proof.
  split; [repeat split|]. apply exec_history with exd_ops exd0; [repeat constructor|constructor|].
  unfold exd1. assert (Y : match exec exd_hooks exd_ops exd0 with Some _ => true | None => false end = true) by (vm_compute; reflexivity).
  destruct (exec exd_hooks exd_ops exd0); [reflexivity|discriminate].
Qed.
(** four cycles: the efforts sent are 0, 0 (the switch takes effect at the end of the second cycle), then 30 instead of 100;
    the actuator receives them *)
Example C39_ex : (exists p, sy_plant (world exd1) = Ok p) /\
  map (fun x => map B2SF [commanded_effort (m_js (fst x) 0); a_effort (m_act (snd x) 0)]) (sent (sy_out (world exd1)))
  = map (fun z => map B2SF [nofZ z; nofZ z]) [0; 0; 30; 30]%Z.
Proof.
  split; [|vm_compute; reflexivity].
  assert (Y : match sy_plant (world exd1) with Ok _ => true | _ => false end = true) by (vm_compute; reflexivity).
  destruct (sy_plant (world exd1)); try discriminate. eauto.
Qed.
(** four cycles: the joint states are published twice, the statistics once *)
Example C59_ex : map fst (joint_messages (sy_out (world exd1))) = [33; 53]%Z /\
  map (fun x => fst (fst x)) (stat_messages (sy_out (world exd1))) = [49]%Z.
Proof. vm_compute. split; reflexivity. Qed.
(** ... each with the joint's name and the position just propagated; the statistics report the enforced command *)
Example C68_ex :
  map (fun x => (jm_name (snd x), map B2SF (jm_position (snd x)))) (joint_messages (sy_out (world exd1)))
    = [(["shoulder"%string], [B2SF (nofZ 1 : B64)]); (["shoulder"%string], [B2SF (nofZ 1 : B64)])] /\
  map (fun x => map (fun y => (jo_name y, B2SF (jo_commanded_effort y))) (snd (fst x))) (stat_messages (sy_out (world exd1)))
    = [[("shoulder"%string, B2SF (nofZ 30 : B64))]].
Proof. vm_compute. split; reflexivity. Qed.

(** The built-in transmissions: the robot of C41_ex, started as in cm_initXml. *)
Definition exr_cb (p : ptr) (k : callback) (x : Z) (m : mem R) : Z * mem R :=
  match k with CbUpdate => (x, js_upd 0 (set_commanded_effort 100%R) m) | _ => (x, m) end.
Lemma exr_init : exists p0, cm_initXml (builtin true ex_P) true ex_L ex_urdf (ex_root []) 0%R ex_hw ex_mem0 =
  Ok (Some (mkRstate 2 [[0]; [1]] [[0]; [1]] [("j1", 1); ("j0", 0)], p0)).
Proof. eexists. reflexivity. Qed.
Lemma exr_cb_keeps : keeps_joints exr_cb.
Proof.
  intros c k x m p. unfold exr_cb. destruct k; try reflexivity. cbn [snd]. unfold js_upd. cbn [m_js]. unfold Transmission.upd.
  destruct (Nat.eqb p 0); reflexivity.
Qed.
(** every hypothesis of the whole-system theorems holds of it, and it has a history in which a controller is loaded and
    cycles run *)
Example C66_system_ex : exists p0 m, 
  let s := mkRstate 2 [[0]; [1]] [[0]; [1]] [("j1", 1); ("j0", 0)] in
  let H := sys_hooks (builtin true ex_P) true s exd_tick exr_cb 45%Z 25%Z in
  let m0 := mkMgr (fun _ => mkObj "" CONSTRUCTED no_deps new_stats) 0 (fun _ => []) (fun _ => []) false None [] [] false true
              [] 0%Z 0%Z (mkSysw (Ok p0) 3%Z []) [] in
  cm_initXml (builtin true ex_P) true ex_L ex_urdf (ex_root []) 0%R ex_hw ex_mem0 = Ok (Some (s, p0)) /\
  (forall c t, ld_create ex_L c = Some t -> is_new t) /\
  (forall e, In e (ChildElements (ex_root []) "transmission") -> usable ex_L e) /\
  keeps_joints exr_cb /\ starts p0 m0 /\ history H m0 m /\ exists e m1, history H m0 m1 /\ loaded m1 = [e] /\ update H true true m1 = Ok m.
Proof.
  destruct exr_init as [p0 EI].
  set (s := mkRstate 2 [[0]; [1]] [[0]; [1]] [("j1", 1); ("j0", 0)]) in *.
  set (H := sys_hooks (builtin true ex_P) true s exd_tick exr_cb 45%Z 25%Z).
  set (m0 := mkMgr (fun _ => mkObj "" CONSTRUCTED no_deps new_stats) 0 (fun _ => []) (fun _ => []) false None [] [] false true
              [] 0%Z 0%Z (mkSysw (Ok p0) 3%Z []) []).
  assert (ST : starts p0 m0) by (repeat split).
  destruct (loadController H exEnv "a" m0) as [[a m1]| | |] eqn:LD; try discriminate LD.
  assert (L1 : loaded m1 = [mkEntry "a" 0]) by (cbv in LD; injection LD as _ <-; reflexivity).
  assert (H1 : history H m0 m1).
  { apply (hist_step H m0 m0 (OpLoad exEnv "a") a m1); [constructor|exact I|]. rewrite <- LD. constructor. reflexivity. }
  destruct (C66_system_never_crashes true ex_P ex_L C41_ex_loader ex_urdf (ex_root []) 0%R ex_hw ex_mem0 s p0 EI C66_ex exd_tick exr_cb 45%Z 25%Z exr_cb_keeps ltac:(split; reflexivity) m0 m1 true true ST H1)
    as (p & m & p' & _ & U & _).
  exists p0, m. cbv zeta. fold s. fold H. fold m0. split; [exact EI|]. split; [exact C41_ex_loader|]. split; [exact C66_ex|]. split; [exact exr_cb_keeps|].
  split; [exact ST|]. split; [|exists (mkEntry "a" 0), m1; auto].
  apply (hist_step H m0 m1 (OpUpdate true true) (Returned true) m); [exact H1|exact I|].
  replace (Ok (Returned true, m)) with (do m' <- update H true true m1; Ok (Returned true, m')); [apply step_update|]. change (update H true true m1 = Ok m) in U. rewrite U. reflexivity.
Qed.
