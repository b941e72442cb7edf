(** C83: the whole system with the realtime thread, the service threads and the hardware interleaved. *)
From Coq Require Import List String Arith Bool ZArith Lia Reals Lra.
From Flocq Require Import IEEE754.BinarySingleNaN.
From Verif.Model Require Import Base Num Xml Joint Hardware Transmission Scheduler Controller Manager ManagerConc Robot Builtin System.
From Verif.Spec Require Import JointSpec ManagerSpec RobotSpec SystemSpec ConcSpec ConcSystemSpec.
From Verif.Proofs Require Import ManagerProofs ManagerInv CycleTotal LoadProofs RobotProofs WorldSteps SystemProofs ConcWorld ConcSystem ConcInv.
From Verif.Props Require Import JointProps ManagerProps RobotProps SystemProps ConcProps.
Import ListNotations.
Local Open Scope string_scope.
Local Open Scope list_scope.
Local Open Scope nat_scope.

Section Generic.
Context {Tr T X : Type} {N : Num T} (K : tclass Tr T) (dbg : bool) (s : rstate) (tick : X -> Z * X)
        (cb : ptr -> callback -> X -> mem T -> X * mem T) (pm pj : Z).
Let H : hooks (sysw Tr T X) := sys_hooks K dbg s tick cb pm pj.

Lemma sent_snoc (o : list (output T)) x : sent (o ++ [x]) = sent o ++ match x with OutEffort a b => [(a, b)] | _ => [] end.
Proof. rewrite sent_app. cbn [sent flat_map]. now rewrite app_nil_r. Qed.

(** In every interleaving: whatever the starting, update and stopping code of the controllers writes, the effort handed to
    the transmissions for joint [k] is what limit enforcement made of a command written since the last reset to zero, provided
    no init() code and nobody outside writes that joint's command.  [Q]: anything true of zero and of what the callbacks make
    of a command of which it is true. *)
Theorem C83_every_sent_effort_enforced : forall (Q : T -> Prop) k p0 m0 ls c p,
  k < rs_size s -> keeps_joints cb -> inits_leave cb k -> Q nzero ->
  (forall d kind x m, Q (commanded_effort (m_js m k)) -> Q (commanded_effort (m_js (snd (cb d kind x m)) k))) ->
  starts p0 m0 -> steps H (quiet m0) ls c -> outside_labels ls -> outside_leaves k ls -> sy_plant (world (mg c)) = Ok p ->
  forall ms ma, In (ms, ma) (sent (sy_out (world (mg c)))) -> exists j, Q (commanded_effort j) /\ enforced_from j (m_js ms k).
Proof.
  intros Q k p0 m0 ls c p LT KJ IL Q0 QS ST S OL OV P.
  enough (G : (forall ms ma, In (ms, ma) (sent (sy_out (world (mg c)))) -> exists j, Q (commanded_effort j) /\ enforced_from j (m_js ms k)) /\
    match rt c with
    | RRestart _ | RRestarting _ | RUpdate _ => Q (commanded_effort (m_js (pl_mem p) k))
    | REffort => exists j, Q (commanded_effort j) /\ enforced_from j (m_js (pl_mem p) k)
    | _ => True
    end) by apply G.
  revert p P. remember (quiet m0) as c0 eqn:E0. induction S as [c0|c0 ls c1 l c2 S IH E]; intros p P; subst c0.
  - split; [|exact I]. intros ms ma IN. destruct ST as (_ & _ & EO). cbn [quiet mg] in IN. rewrite EO in IN. destruct IN.
  - apply Forall_app in OL. destruct OL as [OL OL1]. apply Forall_app in OV. destruct OV as [OV OV1].
    specialize (IH eq_refl OL OV).
    assert (QW : forall cbs m m', written cb cbs m m' -> Q (commanded_effort (m_js m k)) -> Q (commanded_effort (m_js m' k))).
    { intros cbs m m' WR. induction WR as [m|[d kind] x cbs m m' WR IHw]; intros QM; auto. }
    assert (CASES : (exists a b, l = LRt a b) \/ forall a b, l <> LRt a b) by (destruct l; [left; eauto|right; congruence..]).
    destruct CASES as [(a & b & ->)|NR].
    + destruct (rt_plant K dbg s tick cb pm pj a b c1 c2 p E P) as (q & Qq & SS). specialize (IH q Qq). destruct IH as [IH1 IH2].
      cbn [sys_step] in SS. unfold out_of, quiet_out in SS.
      assert (SAME : sy_out (world (mg c2)) = sy_out (world (mg c1)) -> forall ms ma, In (ms, ma) (sent (sy_out (world (mg c2)))) ->
                exists j, Q (commanded_effort j) /\ enforced_from j (m_js ms k)) by (intros ->; exact IH1).
      destruct (rt c1) as [|x| |i|i|i| | |t| | |ps|ps|].
      * destruct SS as (_ & [OO _] & PC). split; [exact (SAME OO)|]. destruct (rt c2); auto; destruct PC.
      * destruct SS as (_ & [OO _] & PC). split; [exact (SAME OO)|]. destruct (rt c2); auto; destruct PC.
      * destruct SS as (ts & m1 & m2 & _ & Z0 & -> & [OO _] & PC). split; [exact (SAME OO)|]. 
        assert (QZ : Q (commanded_effort (m_js (pl_mem (set_pl_mem m2 (set_pl_ts ts (set_pl_mem m1 q)))) k))).
        { cbn [pl_mem set_pl_mem]. rewrite (proj2 (zero_spec s _ _ Z0) k LT). exact Q0. }
        destruct PC as [-> | ->]; exact QZ.
      * destruct SS as ((cbs & m & WR & ->) & [OO _] & PC). split; [exact (SAME OO)|].
        pose proof (QW _ _ _ WR IH2). destruct (rt c2); auto; destruct PC.
      * destruct SS as ((cbs & m & WR & ->) & [OO _] & PC). split; [exact (SAME OO)|].
        pose proof (QW _ _ _ WR IH2). destruct (rt c2); auto; destruct PC.
      * destruct SS as [((cbs & m & WR & ->) & [OO _] & ->)|(m & EN & -> & [OO _] & ->)]; (split; [exact (SAME OO)|]).
        { exact (QW _ _ _ WR IH2). }
        exists (m_js (pl_mem q) k). split; [exact IH2|]. cbn [pl_mem set_pl_mem]. exists (m_js m k). split; [|auto].
        apply (enforce_spec s _ _ EN). exact LT.
      * destruct SS as (ts & m & EF & -> & OO & _ & ->). split; [|exact I]. rewrite OO, sent_snoc. intros ms ma IN. apply in_app_or in IN.
        destruct IN as [IN|[IN|[]]]; [apply (IH1 _ _ IN)|]. injection IN as <- <-. exact IH2.
      * destruct SS as (-> & [OO _] & PC). split; [exact (SAME OO)|]. destruct PC as [-> |(t & -> & _)]; exact I.
      * destruct SS as (m & js & acts & _ & _ & -> & OO & _ & _ & ->). split; [|exact I]. rewrite OO, sent_snoc, app_nil_r. exact IH1.
      * destruct SS as (-> & _ & D). split; [|exact I]. destruct D as [(-> & OO & _)|(t & msg & _ & _ & _ & _ & -> & OO)]; [exact (SAME OO)|].
        rewrite OO, sent_snoc, app_nil_r. exact IH1.
      * destruct SS as (_ & [OO _] & PC). split; [exact (SAME OO)|]. destruct (rt c2); auto; destruct PC.
      * destruct SS as (_ & [OO _] & PC). split; [exact (SAME OO)|]. destruct (rt c2); auto; destruct PC.
      * destruct SS as (_ & [OO _] & PC). split; [exact (SAME OO)|]. destruct (rt c2); auto; destruct PC.
      * destruct SS as (_ & [OO _] & PC). split; [exact (SAME OO)|]. destruct (rt c2); auto; destruct PC.
    + inversion OL1 as [|? ? OL2 _]; subst.
      destruct (other_plant K dbg s tick cb pm pj l c1 c2 p E NR OL2 P) as (q & m & Qq & -> & [OO _] & RT & JJ & CC).
      destruct (IH q Qq) as [IH1 IH2]. specialize (JJ KJ k). specialize (CC k IL OV1). unfold out_of in OO.
      rewrite OO, RT. split; [exact IH1|]. cbn [pl_mem set_pl_mem].
      destruct (rt c1); auto; try (rewrite CC; exact IH2).
      destruct IH2 as (j & QJ & j1 & E1 & E2 & E3). exists j. split; [exact QJ|]. exists j1. split; [exact E1|]. split; [now rewrite CC|now rewrite JJ].
Qed.

(** a joint nobody writes a command to is sent (the enforced version of) zero, in every interleaving *)
Theorem C83_untouched_joint_zero : forall k p0 m0 ls c p,
  k < rs_size s -> keeps_joints cb -> (forall d, leaves_command cb k d) ->
  starts p0 m0 -> steps H (quiet m0) ls c -> outside_labels ls -> outside_leaves k ls -> sy_plant (world (mg c)) = Ok p ->
  forall ms ma, In (ms, ma) (sent (sy_out (world (mg c)))) -> exists j, commanded_effort j = nzero /\ enforced_from j (m_js ms k).
Proof.
  intros k p0 m0 ls c p LT KJ LC ST S OL OV P. apply (C83_every_sent_effort_enforced (fun x => x = nzero) k p0 m0 ls c p); auto.
  - intros d b. apply LC.
  - intros d kind x m QM. pose proof (LC (d, kind) x m) as Y. cbn [fst snd] in Y. rewrite Y. exact QM.
Qed.

(** ** publication times *)
Definition windows (first per last : Z) (ts : list Z) : Prop :=
  exists ks k, increasing 0 ks /\ Forall2 (fun k t => in_window first per k t) ks ts /\
    last = (first + k * per)%Z /\ (0 <= k)%Z /\ (forall k', (k < k')%Z -> increasing 0 (ks ++ [k'])).
Lemma windows_nil first per : windows first per first [].
Proof. exists [], 0%Z. split; [constructor|]. split; [constructor|]. split; [lia|]. split; [lia|]. intros k' L. repeat constructor. exact L. Qed.
Lemma windows_snoc first per last last' ts t : (0 < per)%Z -> windows first per last ts -> (last + per < t)%Z ->
  catch_up (catch_up_fuel last t) last per t = Ok last' -> windows first per last' (ts ++ [t]).
Proof.
  intros HP (ks & k & A & B & C & D & F) TT CU. destruct (catch_up_inv _ _ _ _ _ CU) as (n & LJ & W1 & W2).
  assert (NP : n <> 0). { intros ->. lia. }
  destruct W2 as [?|W2]; [contradiction|].
  set (k' := (k + Z.of_nat n)%Z). assert (L' : last' = (first + k' * per)%Z) by (unfold k'; rewrite LJ, C; lia).
  assert (KK : (k < k')%Z) by (unfold k'; lia).
  exists (ks ++ [k']), k'. split; [apply F; exact KK|]. split.
  { apply Forall2_app; [exact B|]. constructor; [|constructor].
    unfold in_window. split; [lia|]. replace ((k' + 1) * per)%Z with (k' * per + per)%Z by lia. lia. }
  split; [exact L'|]. split; [lia|]. intros k'' L2. rewrite <- app_assoc. cbn [app]. specialize (F k' KK). clear - F L2.
  revert F. generalize 0%Z. induction ks as [|x ks IHk]; intros z F; cbn [app] in *; inversion F; subst; constructor; auto. constructor; auto. constructor.
Qed.

Lemma conc_windows : forall p0 m0 ls c p, (0 < pm)%Z -> (0 < pj)%Z -> starts p0 m0 -> steps H (quiet m0) ls c -> outside_labels ls -> sy_plant (world (mg c)) = Ok p ->
  windows (last_js m0) pj (last_js (mg c)) (map fst (joint_messages (sy_out (world (mg c))))) /\
  windows (last_mech m0) pm (last_mech (mg c)) (map (fun x => fst (fst x)) (stat_messages (sy_out (world (mg c))))) /\
  match rt c with RFill t => (last_mech (mg c) + pm < t)%Z | _ => True end.
Proof.
  intros p0 m0 ls c p HM HJ ST S OL. revert p. remember (quiet m0) as c0 eqn:E0. induction S as [c0|c0 ls c1 l c2 S IH E]; intros p P; subst c0.
  - destruct ST as (_ & _ & EO). cbn [quiet mg rt]. rewrite EO. split; [apply windows_nil|]. split; [apply windows_nil|exact I].
  - apply Forall_app in OL. destruct OL as [OL OL1]. specialize (IH eq_refl OL).
    assert (JA : forall (o : list (output T)) x, joint_messages (o ++ [x]) = joint_messages o ++ match x with OutJoints t m => [(t, m)] | _ => [] end).
    { intros o x. unfold joint_messages. rewrite flat_map_app. cbn [flat_map]. now rewrite app_nil_r. }
    assert (SA : forall (o : list (output T)) x, stat_messages (o ++ [x]) = stat_messages o ++ match x with OutStats t a b => [(t, a, b)] | _ => [] end).
    { intros o x. unfold stat_messages. rewrite flat_map_app. cbn [flat_map]. now rewrite app_nil_r. }
    assert (CASES : (exists a b, l = LRt a b) \/ forall a b, l <> LRt a b) by (destruct l; [left; eauto|right; congruence..]).
    destruct CASES as [(a & b & ->)|NR].
    + destruct (rt_plant K dbg s tick cb pm pj a b c1 c2 p E P) as (q & Qq & SS). destruct (IH q Qq) as (IH1 & IH2 & IH3).
      cbn [sys_step] in SS. unfold out_of, quiet_out in SS.
      assert (SAME : sy_out (world (mg c2)) = sy_out (world (mg c1)) /\ same_pub (mg c1) (mg c2) ->
        windows (last_js m0) pj (last_js (mg c2)) (map fst (joint_messages (sy_out (world (mg c2))))) /\
        windows (last_mech m0) pm (last_mech (mg c2)) (map (fun x => fst (fst x)) (stat_messages (sy_out (world (mg c2)))))).
      { intros (-> & -> & ->). auto. }
      assert (DONE : forall A B : Prop, A /\ B -> (match rt c2 with RFill t => (last_mech (mg c2) + pm < t)%Z | _ => True end) ->
                 A /\ B /\ match rt c2 with RFill t => (last_mech (mg c2) + pm < t)%Z | _ => True end) by tauto.
      destruct (rt c1) as [|x| |i|i|i| | |t| | |ps|ps|].
      1,2,11,12,13,14: destruct SS as (_ & OO & PC); apply DONE; [exact (SAME OO)|destruct (rt c2); auto; destruct PC].
      * destruct SS as (ts & m1 & m2 & _ & Z0 & -> & OO & PC). apply DONE; [exact (SAME OO)|]. destruct PC as [-> | ->]; exact I.
      * destruct SS as (_ & OO & PC). apply DONE; [exact (SAME OO)|destruct (rt c2); auto; destruct PC].
      * destruct SS as (_ & OO & PC). apply DONE; [exact (SAME OO)|destruct (rt c2); auto; destruct PC].
      * destruct SS as [(_ & OO & ->)|(m & EN & -> & OO & ->)]; (split; [apply (SAME OO)|split; [apply (SAME OO)|exact I]]).
      * destruct SS as (ts & m & EF & -> & OO & [LJ LM] & ->). rewrite OO, JA, SA, !app_nil_r, LJ, LM. auto.
      * destruct SS as (-> & OO & PC). split; [apply (SAME OO)|]. split; [apply (SAME OO)|]. destruct OO as (_ & _ & LM). destruct PC as [-> |(t & -> & LT)]; [exact I|]. rewrite LM. exact LT.
      * destruct SS as (m & js & acts & _ & _ & -> & OO & LJ & CU & ->). rewrite OO, JA, SA, app_nil_r, LJ. split; [exact IH1|]. split; [|exact I].
        rewrite map_app. cbn [map fst]. eapply windows_snoc; eauto.
      * destruct SS as (-> & LM & D). destruct D as [(-> & OO)|(t & msg & _ & TT & CU & _ & -> & OO)].
        { split; [apply (SAME OO)|]. split; [apply (SAME OO)|exact I]. }
        rewrite OO, JA, SA, app_nil_r, LM. split; [|split; [exact IH2|exact I]]. rewrite map_app. cbn [map fst]. eapply windows_snoc; eauto.
    + inversion OL1 as [|? ? OL2 _]; subst.
      destruct (other_plant K dbg s tick cb pm pj l c1 c2 p E NR OL2 P) as (q & m & Qq & -> & (OO & LJ & LM) & RT & _).
      destruct (IH q Qq) as (IH1 & IH2 & IH3). unfold out_of in OO. rewrite OO, LJ, LM, RT. auto.
Qed.

(** With positive periods the publications of any interleaving fall into distinct, ever later periods counted from the
    initialisation: at most one joint state message and one statistics message per period. *)
Theorem C83_one_message_per_period : forall p0 m0 ls c p, (0 < pm)%Z -> (0 < pj)%Z ->
  starts p0 m0 -> steps H (quiet m0) ls c -> outside_labels ls -> sy_plant (world (mg c)) = Ok p ->
  (exists ks, increasing 0 ks /\ Forall2 (in_window (last_js m0) pj) ks (map fst (joint_messages (sy_out (world (mg c)))))) /\
  (exists ks, increasing 0 ks /\ Forall2 (in_window (last_mech m0) pm) ks (map (fun x => fst (fst x)) (stat_messages (sy_out (world (mg c)))))).
Proof.
  intros p0 m0 ls c p HM HJ ST S OL P. destruct (conc_windows p0 m0 ls c p HM HJ ST S OL P) as ((ks & k & A & B & _) & (ks' & k' & A' & B' & _) & _).
  split; eauto.
Qed.
End Generic.

(** in floating point: no effort beyond the joint's limit reaches a transmission, in any interleaving *)
Theorem C83_effort_within_limit : forall {Tr X} (K : tclass Tr B64) dbg s (tick : X -> Z * X) cb pm pj k p0 m0 ls c p,
  k < rs_size s -> keeps_joints cb -> inits_leave cb k ->
  starts p0 m0 -> steps (sys_hooks K dbg s tick cb pm pj) (quiet m0) ls c -> outside_labels ls -> outside_leaves k ls -> sy_plant (world (mg c)) = Ok p ->
  forall ms ma u sf lm, In (ms, ma) (sent (sy_out (world (mg c)))) ->
  has_safety (m_js ms k) u sf lm -> fle f0 (lim_effort lm) -> not_nan (commanded_effort (m_js ms k)) ->
  fle (Bopp (lim_effort lm)) (commanded_effort (m_js ms k)) /\ fle (commanded_effort (m_js ms k)) (lim_effort lm).
Proof.
  intros Tr X K dbg s tick cb pm pj k p0 m0 ls c p LT KJ IL ST S OL OV P ms ma u sf lm IN HS POS NN.
  destruct (C83_every_sent_effort_enforced K dbg s tick cb pm pj (fun _ => True) k p0 m0 ls c p LT KJ IL I (fun _ _ _ _ _ => I) ST S OL OV P ms ma IN) as (j & _ & j1 & E & EC & EJ).
  assert (JJ : js_joint j = js_joint j1).
  { unfold enforceLimits in E. destruct (getLimits j) as [[lo hi]| | |]; cbn [bind] in E; try discriminate. injection E as <-. reflexivity. }
  assert (HS' : has_safety j u sf lm) by (unfold has_safety in *; rewrite JJ, <- EJ; exact HS).
  rewrite EC in *. destruct (C30_effort_within_limit j _ u sf lm HS' POS (enforce_nan _ _ E NN) E) as (A & B & _). auto.
Qed.

(** ** The built-in transmissions *)
Section Whole.
Context {T X : Type} {N : Num T} {G : Trig T}.
Variables (dbg : bool) (P : parsers T) (L : loader (transmission T)).
Hypothesis HL : forall c t, ld_create L c = Some t -> is_new t.
Notation K := (builtin dbg P).
Variables (urdf : xml -> option (string -> option (ujoint T))) (config : xml) (g : T) (hw : hwif) (mem0 : mem T) (s : rstate) (p0 : plant (transmission T) T).
Hypothesis HI : cm_initXml K dbg L urdf config g hw mem0 = Ok (Some (s, p0)).
Hypothesis HU : forall e, In e (ChildElements config "transmission") -> usable L e.
Variables (tick : X -> Z * X) (cb : ptr -> callback -> X -> mem T -> X * mem T) (pm pj : Z).
Hypothesis HC : keeps_joints cb.
Hypothesis HP : (0 < pm)%Z /\ (0 < pj)%Z.
Let H : hooks (sysw (transmission T) T X) := sys_hooks K dbg s tick cb pm pj.
Notation fine := (fine_plant dbg P hw s p0).

Lemma fine_moved cbs m m' p : moved H cbs m m' -> sy_plant (world m) = Ok p -> fine p -> exists p', sy_plant (world m') = Ok p' /\ fine p'.
Proof. intros [A _]. eapply fine_acts; eauto. Qed.

Lemma fine_bstep l c c' p : bstep H l c = Some (Ok c') -> match l with LEnv f => outside f | _ => True end ->
  sy_plant (world (mg c)) = Ok p -> fine p -> exists p', sy_plant (world (mg c')) = Ok p' /\ fine p'.
Proof.
  intros E O Q F. pose proof (bstep_world H _ _ _ E) as B.
  assert (G1 : rt c' = rt c /\ (exists cbs, Forall is_init cbs /\ moved H cbs (mg c) (mg c')) -> exists p', sy_plant (world (mg c')) = Ok p' /\ fine p').
  { intros (_ & cbs & _ & M). eapply fine_moved; eauto. }
  destruct l as [a b|k|k srv pr| | | |f]; try exact (G1 B).
  2:{ destruct B as (_ & WE & _). specialize (O (world (mg c))) as [_ O2]. rewrite Q, <- WE in O2. destruct O2 as (m & Q' & J).
      exists (set_pl_mem m p). split; [exact Q'|]. eapply fine_mem; eauto. }
  unfold rt_world in B. pose proof (now_plant K dbg s tick cb pm pj (world (mg c))) as [NP _]. fold H in NP. rewrite Q in NP.
  destruct (rt c) as [|x| |i|i|i| | |t| | |ps|ps|].
  1,2: destruct B as [M _]; eapply fine_moved; eauto.
  - destruct B as (A & _). destruct (fine_propagate dbg P hw s p0 tick cb pm pj _ _ NP F) as (p1 & B1 & F1).
    destruct (fine_zero dbg P hw s p0 tick cb pm pj _ _ B1 F1) as (p2 & B2 & F2).
    eapply fine_acts; eauto.
  - destruct B as [(cbs & M) _]. eapply fine_moved; eauto.
  - destruct B as [(cbs & M) _]. eapply fine_moved; eauto.
  - destruct B as [((cbs & M) & _)|(-> & _)]; [eapply fine_moved; eauto|]. eapply fine_enforce; eauto.
  - destruct B as (A & _). destruct (fine_effort dbg P hw s p0 tick cb pm pj _ _ Q F) as (p1 & B1 & F1). eapply fine_acts; eauto.
  - destruct B as (t & N1 & _). rewrite N1 in NP. cbn [snd] in NP. eauto.
  - destruct B as (_ & A & _). destruct (fine_mech dbg P hw s p0 tick cb pm pj t _ _ Q F) as (m & js & acts & _ & _ & _ & _ & _ & B1 & F1). eapply fine_acts; eauto.
  - destruct B as (AT & _). eapply fine_attempt_js; eauto.
  - destruct B as [(cbs & _ & M) _]. eapply fine_moved; eauto.
  - destruct B as [(cbs & _ & M) _]. eapply fine_moved; eauto.
  - destruct B as [(cbs & _ & M) _]. eapply fine_moved; eauto.
  - destruct B as [(cbs & _ & M) _]. eapply fine_moved; eauto.
Qed.

Lemma fine_steps m0 ls c : starts p0 m0 -> steps H (quiet m0) ls c -> outside_labels ls -> exists p, sy_plant (world (mg c)) = Ok p /\ fine p.
Proof.
  intros ST S OL. remember (quiet m0) as c0 eqn:E0. induction S as [c0|c0 ls c1 l c2 S IH E]; subst c0.
  - destruct ST as (_ & Q & _). exists p0. split; [exact Q|]. eapply fine_start; eauto.
  - apply Forall_app in OL. destruct OL as [OL OL1]. inversion OL1 as [|? ? OL2 _]; subst. destruct (IH eq_refl OL) as (p & Q & F).
    eapply fine_bstep; eauto.
Qed.

(** After a successful initXml with usable transmissions: in every interleaving of the realtime thread, any number of service
    threads and the hardware, the robot never crashes ... *)
Theorem C83_robot_never_crashes : forall m0 ls c, starts p0 m0 -> steps H (quiet m0) ls c -> outside_labels ls ->
  exists p, sy_plant (world (mg c)) = Ok p.
Proof. intros m0 ls c ST S OL. destruct (fine_steps m0 ls c ST S OL) as (p & Q & _). eauto. Qed.

(** ... and, up to the two races of C22, the realtime thread can always make its next step, after which the robot still
    has not crashed. *)
Theorem C83_realtime_always_proceeds : forall m0 ls c a b, starts p0 m0 -> steady H (quiet m0) ls c -> rosok c = true -> outside_labels ls ->
  exists c' p', bstep H (LRt a b) c = Some (Ok c') /\ sy_plant (world (mg c')) = Ok p'.
Proof.
  intros m0 ls c a b ST S RO OL.
  assert (SS : steps H (quiet m0) ls c). { clear - S. induction S; [constructor|econstructor; eauto]. }
  destruct (fine_steps m0 ls c ST SS OL) as (p & Q & F).
  assert (LV : live H c). { destruct ST as (IN & _). exists m0, ls. split; [now apply reach_init|]. split; [apply IN|]. split; [exact S|exact RO]. }
  destruct (C23_never_blocks H HP a b c LV) as (c' & E).
  destruct (fine_bstep _ _ _ _ E I Q F) as (p' & Q' & _). eauto.
Qed.

(** Every step of an interleaving emits at most one thing: the efforts, or a message reporting exactly the joints (and
    actuators) as they are at that step. *)
Theorem C83_messages_are_snapshots : forall m0 ls c l c', starts p0 m0 -> outside_labels (ls ++ [l]) ->
  steps H (quiet m0) ls c -> bstep H l c = Some (Ok c') ->
  exists p p' new, sy_plant (world (mg c)) = Ok p /\ sy_plant (world (mg c')) = Ok p' /\ sy_out (world (mg c')) = sy_out (world (mg c)) ++ new /\
    (new = [] \/
     (exists m, new = [OutEffort (pl_mem p) m] /\ pl_mem p' = m) \/
     (exists t msg, new = [OutJoints t msg] /\ snapshot_message (rs_size s) (pl_mem p) msg /\ pl_mem p' = pl_mem p) \/
     (exists t js acts, new = [OutStats t js acts] /\ snapshot_statistics (rs_size s) (actuators hw) (pl_mem p) t js acts /\
        forall k, k < rs_size s -> m_js (pl_mem p') k = set_joint_statistics (stats_reset (joint_statistics (m_js (pl_mem p) k))) (m_js (pl_mem p) k))).
Proof.
  intros m0 ls c l c' ST OL S E. apply Forall_app in OL. destruct OL as [OL OL1]. inversion OL1 as [|? ? OL2 _]; subst.
  destruct (fine_steps m0 ls c ST S OL) as (p & Q & F). destruct (fine_bstep _ _ _ _ E OL2 Q F) as (p' & Q' & F').
  exists p, p'. assert (NIL : quiet_out c c' -> sy_out (world (mg c')) = sy_out (world (mg c)) ++ []) by (intros [OO _]; unfold out_of in OO; now rewrite OO, app_nil_r).
  assert (CASES : (exists a b, l = LRt a b) \/ forall a b, l <> LRt a b) by (destruct l; [left; eauto|right; congruence..]).
  destruct CASES as [(a & b & ->)|NR].
  2:{ destruct (other_plant K dbg s tick cb pm pj l c c' p' E NR OL2 Q') as (q & m & _ & _ & QO & _). exists []. auto. }
  destruct (rt_plant K dbg s tick cb pm pj a b c c' p' E Q') as (q & Qq & SS). assert (q = p) by congruence. subst q. clear Qq.
  cbn [sys_step] in SS. unfold out_of in SS.
  destruct (rt c) as [|x| |i|i|i| | |t| | |ps|ps|].
  1,2,4,5,11,12,13,14: destruct SS as (_ & QO & _); exists []; auto.
  - destruct SS as (ts & m1 & m2 & _ & _ & _ & QO & _). exists []. auto.
  - destruct SS as [(_ & QO & _)|(m & _ & _ & QO & _)]; exists []; auto.
  - destruct SS as (ts & m & _ & -> & OO & _). exists [OutEffort (pl_mem p) m]. split; [exact Q|]. split; [exact Q'|]. split; [exact OO|]. right. left. exists m. auto.
  - destruct SS as (_ & QO & _). exists []. auto.
  - destruct SS as (m & js & acts & FS & FA & -> & OO & _). exists [OutStats t js acts]. split; [exact Q|]. split; [exact Q'|]. split; [exact OO|]. right. right. right.
    destruct (fine_mech dbg P hw s p0 tick cb pm pj t _ _ Q F) as (m2 & js2 & acts2 & FS2 & FA2 & SN & _ & MJ & _).
    rewrite FS in FS2. injection FS2 as <- <-. rewrite FA in FA2. injection FA2 as <-. exists t, js, acts. auto.
  - destruct SS as (_ & _ & [(_ & QO)|(t & msg & _ & _ & _ & FM & -> & OO)]); [exists []; auto|].
    exists [OutJoints t msg]. split; [exact Q|]. split; [exact Q'|]. split; [exact OO|]. right. right. left.
    destruct (fine_js dbg P hw s p0 tick cb pm pj t _ _ Q F) as (msg2 & FM2 & SN & _). rewrite FM in FM2. injection FM2 as <-. exists t, msg. auto.
Qed.
End Whole.

(** ** Concrete interleavings of the one-joint system of C39 (limit 30) *)
Notation exd_label := (label (sysw unit B64 Z)).
Definition exc_rt n : list exd_label := times n [LRt true true].
Definition exc_th k n : list exd_label := times n [LTh k].
Definition exc_load : exd_label := LStart 0 false (PCall (CLoad exEnv "a") (fun _ => PEnd)).
Definition exc_switch : exd_label := LStart 1 true (switch_service ["a"] [] STRICT).
Definition exc_ran (H : hooks (sysw unit B64 Z)) ls := match runs H ls (quiet exd0) with Some c => c | None => quiet exd0 end.
Lemma exc_steps (H : hooks (sysw unit B64 Z)) ls : match runs H ls (quiet exd0) with Some _ => true | None => false end = true -> steps H (quiet exd0) ls (exc_ran H ls).
Proof. unfold exc_ran. destruct (runs H ls (quiet exd0)) as [c|] eqn:E; [|discriminate]. intros _. apply (runs_steps H ls _ _ E (quiet exd0) []). constructor. Qed.
Lemma exc_labels ls : forallb (fun l : exd_label => match l with LEnv _ => false | _ => true end) ls = true -> outside_labels ls /\ outside_leaves 0 ls.
Proof.
  intros E. rewrite forallb_forall in E. split; apply Forall_forall; intros l IN; specialize (E l IN); destruct l; try exact I; discriminate.
Qed.
(** a controller is loaded while the realtime thread runs (its init() between two steps of a cycle), then started by the switch
    service; from then on it writes 100 in every cycle and 30 is sent *)
Definition exc_ls : list exd_label :=
  exc_rt 5 ++ [exc_load] ++ exc_th 0 4 ++ exc_rt 4 ++ exc_th 0 2 ++ exc_rt 4 ++ exc_th 0 3 ++ [exc_switch] ++ exc_th 1 7 ++ exc_rt 30.
Example C83_ex : starts exd_plant exd0 /\ keeps_joints exd_cb /\ inits_leave exd_cb 0 /\ outside_labels exc_ls /\ outside_leaves 0 exc_ls /\
  steps exd_hooks (quiet exd0) exc_ls (exc_ran exd_hooks exc_ls) /\ (exists p, sy_plant (world (mg (exc_ran exd_hooks exc_ls))) = Ok p) /\
  map (fun x => map B2SF [commanded_effort (m_js (fst x) 0); a_effort (m_act (snd x) 0)]) (sent (sy_out (world (mg (exc_ran exd_hooks exc_ls)))))
  = map (map B2SF) [[nofZ 0; nofZ 0]; [nofZ 0; nofZ 0]; [nofZ 30; nofZ 30]; [nofZ 30; nofZ 30 : B64]] /\
  map fst (joint_messages (sy_out (world (mg (exc_ran exd_hooks exc_ls))))) = [29; 65]%Z.
Proof.
  split; [repeat split|]. split; [intros p k x m j; destruct k; try reflexivity; unfold exd_cb; cbn [snd]; unfold js_upd; cbn [m_js]; unfold Transmission.upd; destruct (Nat.eqb j 0); reflexivity|].
  split; [intros c b x m; reflexivity|].
  destruct (exc_labels exc_ls eq_refl) as [A B]. split; [exact A|]. split; [exact B|]. split; [apply exc_steps; vm_compute; reflexivity|].
  split; [|split; vm_compute; reflexivity].
  assert (Y : match sy_plant (world (mg (exc_ran exd_hooks exc_ls))) with Ok _ => true | _ => false end = true) by (vm_compute; reflexivity).
  destruct (sy_plant (world (mg (exc_ran exd_hooks exc_ls)))); try discriminate. eauto.
Qed.

(** The hypothesis on init() is needed.  A controller whose init() writes a commanded effort, loaded by a service call that
    runs between the enforcement of the limits and the sending of the efforts, gets 100 through where the limit is 30. *)
Definition exe_cb (p : ptr) (k : callback) (x : Z) (m : mem B64) : Z * mem B64 :=
  match k with CbInit _ => (x, js_upd 0 (set_commanded_effort (nofZ 100)) m) | _ => (x, m) end.
Definition exe_hooks : hooks (sysw unit B64 Z) := sys_hooks exd_class true exd_state exd_tick exe_cb 45%Z 25%Z.
Definition exe_ls : list exd_label := exc_rt 5 ++ [exc_load] ++ exc_th 0 4 ++ exc_rt 1.
Theorem C83_init_can_bypass_limit : starts exd_plant exd0 /\ keeps_joints exe_cb /\ outside_labels exe_ls /\ outside_leaves 0 exe_ls /\
  steps exe_hooks (quiet exd0) exe_ls (exc_ran exe_hooks exe_ls) /\
  map (fun x => (B2SF (commanded_effort (m_js (fst x) 0)),
                 match js_joint (m_js (fst x) 0) with
                 | Some u => match uj_safety u, uj_limits u with Some _, Some lm => Some (B2SF (lim_effort lm)) | _, _ => None end
                 | None => None
                 end)) (sent (sy_out (world (mg (exc_ran exe_hooks exe_ls)))))
  = [(B2SF (nofZ 100 : B64), Some (B2SF (nofZ 30 : B64)))].
Proof.
  split; [repeat split|]. split; [intros p k x m j; destruct k; try reflexivity; unfold exe_cb; cbn [snd]; unfold js_upd; cbn [m_js]; unfold Transmission.upd; destruct (Nat.eqb j 0); reflexivity|].
  destruct (exc_labels exe_ls eq_refl) as [A B]. split; [exact A|]. split; [exact B|]. split; [apply exc_steps; vm_compute; reflexivity|vm_compute; reflexivity].
Qed.

(** the robot of C66_system_ex satisfies every hypothesis of the whole-system theorems; its realtime thread gets past taking
    the list and propagating through the transmissions *)
Example C83_ex_robot : exists p0 c, 
  let s := mkRstate 2 [[0]; [1]] [[0]; [1]] [("j1", 1); ("j0", 0)] in
  let H := sys_hooks (builtin true ex_P) true s exd_tick exr_cb 45%Z 25%Z in
  let m0 := mkMgr (fun _ => mkObj "" CONSTRUCTED no_deps new_stats) 0 (fun _ => []) (fun _ => []) false None [] [] false true
              [] 0%Z 0%Z (mkSysw (Ok p0) 3%Z []) [] in
  cm_initXml (builtin true ex_P) true ex_L ex_urdf (ex_root []) 0%R ex_hw ex_mem0 = Ok (Some (s, p0)) /\
  (forall c t, ld_create ex_L c = Some t -> is_new t) /\
  (forall e, In e (ChildElements (ex_root []) "transmission") -> usable ex_L e) /\
  keeps_joints exr_cb /\ starts p0 m0 /\ steady H (quiet m0) [LRt true true; LRt true true] c /\ rosok c = true /\
  outside_labels [LRt true true; LRt true true : label (sysw (transmission R) R Z)] /\
  exists c', bstep H (LRt true true) c = Some (Ok c').
Proof.
  destruct exr_init as [p0 EI].
  set (s := mkRstate 2 [[0]; [1]] [[0]; [1]] [("j1", 1); ("j0", 0)]) in *.
  set (H := sys_hooks (builtin true ex_P) true s exd_tick exr_cb 45%Z 25%Z).
  set (m0 := mkMgr (fun _ => mkObj "" CONSTRUCTED no_deps new_stats) 0 (fun _ => []) (fun _ => []) false None [] [] false true
              [] 0%Z 0%Z (mkSysw (Ok p0) 3%Z []) []).
  assert (ST : starts p0 m0) by (repeat split).
  destruct (bstep H (LRt true true) (quiet m0)) as [[c1| | |]|] eqn:E1; try discriminate E1.
  destruct (bstep H (LRt true true) c1) as [[c2| | |]|] eqn:E2;
    try (cbv in E1; injection E1 as <-; discriminate E2).
  assert (R2 : rosok c2 = true /\ rt c1 = RGot false /\ cur (mg c1) = false /\ rt c2 = RBegin).
  { cbv in E1. injection E1 as <-. cbv in E2. injection E2 as <-. repeat split. }
  destruct R2 as (R2 & R3 & R4 & R5).
  assert (S2 : steady H (quiet m0) [LRt true true; LRt true true] c2).
  { change [LRt true true; LRt true true] with (([] ++ [LRt true true]) ++ [LRt true true] : list (label (sysw (transmission R) R Z))).
    econstructor; [econstructor; [constructor|exact E1|]|exact E2|].
    - intros a b _ (_ & x & Q & _). discriminate Q.
    - intros a b _ (_ & x & Q & NQ). rewrite R3 in Q. injection Q as <-. congruence. }
  destruct (C83_realtime_always_proceeds true ex_P ex_L C41_ex_loader ex_urdf (ex_root []) 0%R ex_hw ex_mem0 s p0 EI C66_ex exd_tick exr_cb 45%Z 25%Z exr_cb_keeps ltac:(split; reflexivity) m0 _ c2 true true ST S2 R2)
    as (c3 & p3 & E3 & _); [repeat constructor|].
  exists p0, c2. cbv zeta. fold s. fold H. fold m0. split; [exact EI|]. split; [exact C41_ex_loader|]. split; [exact C66_ex|]. split; [exact exr_cb_keeps|].
  split; [exact ST|]. split; [exact S2|]. split; [exact R2|]. split; [repeat constructor|]. exists c3. exact E3.
Qed.
