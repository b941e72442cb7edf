(** C46-C48: the belt transmission (real arithmetic). *)
From Coq Require Import List Reals Arith Bool ZArith Lia Lra Psatz String.
From Flocq Require Import Core.Raux.
From Verif.Model Require Import Base Num Joint Hardware Xml Transmission Belt.
From Verif.Spec Require Import TransmissionSpec BeltSpec.
From Verif.Proofs Require Import TransmissionProofs Geo.
Import ListNotations.
Local Open Scope R_scope.

Lemma bsizes dbg a j : belt_sizes dbg [a] [j] = Ok tt.
Proof. destruct dbg; reflexivity. Qed.

Lemma tosec_R z : ntosec (T := R) z = IZR z / 1000000000.
Proof.
  unfold ntosec, ndec. simpl.
  pose proof (Z.div_mod z 1000000000 ltac:(lia)) as E. rewrite E at 3. rewrite plus_IZR, mult_IZR. field.
Qed.

(** ** One filter step, solved *)
Definition capped (dt l : R) : R := if Rlt_bool (dt * l) 2 then l else 2 / dt.
Lemma capped_bound dt l : 0 < dt -> 0 < l -> 0 < capped dt l /\ capped dt l * (dt / 2) <= 1.
Proof.
  intros Hd Hl. unfold capped. destruct (Rlt_bool_spec (dt * l) 2).
  - split; [auto|]. lra.
  - split; [apply Rdiv_lt_0_compat; lra|]. right. field. lra.
Qed.

Lemma jnt1_step dt l mp p v a p' v' a' : 0 < dt -> 0 < l -> belt_jnt1 dt l mp p v a = (p', v', a') ->
  v' = v + dt / 2 * (a' + a) /\ p' = p + dt / 2 * (v' + v) /\
  a' = - (capped dt l * capped dt l) * (p' - mp) - 2 * capped dt l * v'.
Proof.
  intros Hd Hl. destruct (capped_bound dt l Hd Hl) as [C1 C2]. unfold belt_jnt1. fold (capped dt l).
  change (nltb (nmul dt l) ntwo) with (Rlt_bool (dt * l) 2). change (if Rlt_bool (dt * l) 2 then l else ndiv ntwo dt) with (capped dt l).
  set (lam := capped dt l) in *. clearbody lam.
  unfold nhalf, nquarter, ntwo. simpl. intros [= <- <- <-].
  assert (D : 1 + 1 / 2 * dt * 2 * lam + 1 / 4 * dt * dt * lam * lam <> 0) by nra.
  split; [field; intros Hc; nra|]. split; [field; intros Hc; nra|]. field; intros Hc; nra.
Qed.

Lemma defl_step dt tau c f p v a p' v' a' : 0 < dt -> 0 < tau -> belt_defl dt tau c f p v a = (p', v', a') ->
  let l := / (if Rlt_bool dt (2 * tau) then tau else dt / 2) in
  0 < l /\ l * (dt / 2) <= 1 /\
  v' = v + dt / 2 * (a' + a) /\ p' = p + dt / 2 * (v' + v) /\
  a' = - (l * l) * (p' - c * f) - 2 * l * v'.
Proof.
  intros Hd Ht. unfold belt_defl. change (neqb tau nzero) with (Req_bool tau 0). rewrite Req_bool_false by lra.
  change (nltb dt (nmul ntwo tau)) with (Rlt_bool dt (2 * tau)).
  change (ndiv dt ntwo) with (dt / 2).
  set (k := if Rlt_bool dt (2 * tau) then tau else dt / 2).
  assert (K1 : 0 < k) by (unfold k; destruct (Rlt_bool_spec dt (2 * tau)); lra).
  assert (K2 : dt / 2 <= k) by (unfold k; destruct (Rlt_bool_spec dt (2 * tau)); lra).
  clearbody k. unfold nhalf, nquarter, ntwo. simpl. intros [= <- <- <-].
  assert (D : k * k + 2 * k * (1 / 2) * dt + 1 / 4 * dt * dt <> 0) by nra.
  split; [apply Rinv_0_lt_compat; auto|]. split.
  { apply Rmult_le_reg_l with k; auto. rewrite <- Rmult_assoc, Rinv_r by lra. lra. }
  split; [field; repeat split; intros Hc; nra|]. split; [field; repeat split; intros Hc; nra|]. field; repeat split; intros Hc; nra.
Qed.

Lemma combine_step dt l j1p j1v j2p p v p' v' : 0 < dt -> 0 < l -> belt_combine dt l j1p j1v j2p p v = (p', v') ->
  p' = p + dt / 2 * (v' + v) /\ v' = j1v + capped dt l * (j2p - p').
Proof.
  intros Hd Hl. destruct (capped_bound dt l Hd Hl) as [C1 C2]. unfold belt_combine.
  change (neqb l nzero) with (Req_bool l 0). rewrite Req_bool_false by lra.
  change (if nltb (nmul dt l) ntwo then l else ndiv ntwo dt) with (capped dt l).
  set (lam := capped dt l) in *. clearbody lam. unfold nhalf. simpl. intros [= <- <-].
  assert (D : 1 + 1 / 2 * dt * lam <> 0) by nra.
  split; field; intros Hc; nra.
Qed.

(** ** The whole step *)
Record step_facts (dt : R) (t t' : belt R) (p f : R) : Prop := {
  sf_j1 : belt_jnt1 dt (bt_ljoint t) (p / bt_red t) (bt_j1pos t) (bt_j1vel t) (bt_j1acc t) = (bt_j1pos t', bt_j1vel t', bt_j1acc t');
  sf_d : belt_defl dt (bt_tau t) (bt_compl t) (f * bt_red t) (bt_dpos t) (bt_dvel t) (bt_dacc t) = (bt_dpos t', bt_dvel t', bt_dacc t');
  sf_j : belt_combine dt (bt_lcombo t) (bt_j1pos t') (bt_j1vel t') (p / bt_red t - bt_dpos t') (bt_jpos t) (bt_jvel t) = (bt_jpos t', bt_jvel t');
  sf_mpos : bt_mpos t' = p / bt_red t;
  sf_mvel : bt_mvel t' = if Rlt_bool 0 dt then (p / bt_red t - bt_mpos t) / dt else 0;
  sf_par : bt_red t' = bt_red t /\ bt_compl t' = bt_compl t /\ bt_tau t' = bt_tau t /\ bt_ljoint t' = bt_ljoint t /\ bt_lcombo t' = bt_lcombo t;
  sf_back : bt_damp t' = bt_damp t /\ bt_kd t' = bt_kd t /\ bt_lmotor t' = bt_lmotor t /\ bt_dt t' = dt /\ bt_dmvel t' = bt_mvel t' - bt_mvel t }.

Lemma position_step dbg t a j m : exists t' m',
  belt_propagatePosition dbg t [a] [j] m = Ok (t', m') /\
  step_facts (ntosec (a_sample_timestamp (m_act m a) - bt_last_ts t)) t t' (a_position (m_act m a)) (a_last_measured_effort (m_act m a)) /\
  bt_last_ts t' = a_sample_timestamp (m_act m a) /\ only_joints [j] m m' /\
  position (m_js m' j) = bt_jpos t' + reference_position (m_js m j) /\ velocity (m_js m' j) = bt_jvel t' /\
  measured_effort (m_js m' j) = a_last_measured_effort (m_act m a) * bt_red t.
Proof.
  unfold belt_propagatePosition. rewrite bsizes. cbn [bind vget nth_error].
  set (dt := ntosec _). set (p := a_position (m_act m a)). set (f := a_last_measured_effort (m_act m a)).
  change (ndiv p (bt_red t)) with (p / bt_red t). change (nmul f (bt_red t)) with (f * bt_red t).
  destruct (belt_jnt1 dt (bt_ljoint t) (p / bt_red t) (bt_j1pos t) (bt_j1vel t) (bt_j1acc t)) as [[x1 x2] x3] eqn:E1.
  destruct (belt_defl dt (bt_tau t) (bt_compl t) (f * bt_red t) (bt_dpos t) (bt_dvel t) (bt_dacc t)) as [[y1 y2] y3] eqn:E2.
  change (nsub (p / bt_red t) y1) with (p / bt_red t - y1).
  destruct (belt_combine dt (bt_lcombo t) x1 x2 (p / bt_red t - y1) (bt_jpos t) (bt_jvel t)) as [z1 z2] eqn:E3.
  eexists. eexists. split; [reflexivity|]. split; [|split; [|split]].
  - constructor; simpl; auto; repeat split.
  - reflexivity.
  - split; [reflexivity|]. intros q Hq. simpl in Hq. cbn [js_upd m_js]. unfold upd. destruct (Nat.eqb_spec q j); [subst; tauto|reflexivity].
  - cbn [js_upd m_js]. unfold upd. rewrite !Nat.eqb_refl. repeat split.
Qed.

(** ** C47: convergence *)
Section Converge.
Variable dbg : bool.
Variables a j : nat.
Variables p f ref : R.
Variables pn fn : nat -> R.
Variables s0 delta : Z.
Variables ts ret : nat -> belt R.
Variables ms out : nat -> mem R.

(** The history: the n-th position update is made at time s0 + n delta with the motor at [pn n] and effort [fn n];
    between updates the environment may change anything else (other joints and actuators, effort commands, ...). *)
Definition updates_of : Prop :=
  (forall n, belt_propagatePosition dbg (ts n) [a] [j] (ms n) = Ok (ret n, out n)) /\
  (forall n, same_filter (ret n) (ts (S n))) /\
  (forall n, a_position (m_act (ms n) a) = pn n /\ a_last_measured_effort (m_act (ms n) a) = fn n /\
             a_sample_timestamp (m_act (ms n) a) = (s0 + Z.of_nat n * delta)%Z /\ reference_position (m_js (ms n) j) = ref).

Hypothesis U : updates_of.
Hypothesis Hpn : geometric pn p.
Hypothesis Hfn : geometric fn f.
Hypothesis Hdelta : (0 < delta)%Z.
Hypothesis Hsane : sane (ts 0%nat).

Let dt := IZR delta / 1000000000.
Lemma dt_pos : 0 < dt.
Proof. unfold dt. apply Rdiv_lt_0_compat; [apply IZR_lt; auto|lra]. Qed.

Lemma step_of n : exists d, step_facts d (ts n) (ret n) (pn n) (fn n) /\ bt_last_ts (ret n) = (s0 + Z.of_nat n * delta)%Z /\
  d = ntosec (s0 + Z.of_nat n * delta - bt_last_ts (ts n)) /\
  position (m_js (out n) j) = bt_jpos (ret n) + ref /\ velocity (m_js (out n) j) = bt_jvel (ret n).
Proof.
  destruct U as [U1 [U2 U3]]. destruct (U3 n) as [A [B [C D]]].
  destruct (position_step dbg (ts n) a j (ms n)) as [t' [m' [E [S1 [L [O [P [V _]]]]]]]].
  rewrite U1 in E. injection E as <- <-. rewrite A, B, C in S1. rewrite C in L. rewrite D in P.
  eexists. split; [exact S1|]. auto.
Qed.

Lemma params n : bt_red (ts n) = bt_red (ts 0%nat) /\ bt_compl (ts n) = bt_compl (ts 0%nat) /\ bt_tau (ts n) = bt_tau (ts 0%nat) /\
  bt_ljoint (ts n) = bt_ljoint (ts 0%nat) /\ bt_lcombo (ts n) = bt_lcombo (ts 0%nat).
Proof.
  induction n as [|n IH]; [repeat split|]. destruct (step_of n) as [d [S1 _]]. destruct (sf_par _ _ _ _ _ S1) as [A [B [C [D E]]]].
  destruct U as [_ [U2 _]]. destruct (U2 n) as [_ [A' [B' [C' [D' [E' _]]]]]]. destruct IH as [A0 [B0 [C0 [D0 E0]]]].
  repeat split; congruence.
Qed.

(** from the second update on, the time step is [dt] *)
Lemma step_later n : step_facts dt (ts (S n)) (ret (S n)) (pn (S n)) (fn (S n)).
Proof.
  destruct (step_of (S n)) as [d [S1 [_ [E _]]]]. destruct (step_of n) as [_ [_ [L _]]].
  destruct U as [_ [U2 _]]. destruct (U2 n) as [L' _]. rewrite L', L in E.
  replace (s0 + Z.of_nat (S n) * delta - (s0 + Z.of_nat n * delta))%Z with delta in E by lia.
  rewrite tosec_R in E. fold dt in E. rewrite E in S1. exact S1.
Qed.

Let red := bt_red (ts 0%nat).
Let target := p / red.

Lemma target_conv : geometric (fun n => pn n / red - target) 0.
Proof.
  eapply geo_ext; [|eapply geo_eq; [|apply geo_add; [apply (geo_scal _ _ (/ red) Hpn)|apply (geo_const (- target))]]];
    [intros n; unfold Rdiv; ring|unfold target, Rdiv; ring].
Qed.
Lemma j1_conv : geometric (fun n => bt_j1pos (ret n)) target /\ geometric (fun n => bt_j1vel (ret n)) 0.
Proof.
  destruct Hsane as [Hl _]. pose proof dt_pos as Hd.
  set (l := capped dt (bt_ljoint (ts 0%nat))). destruct (capped_bound dt _ Hd Hl) as [L1 L2]. fold l in L1, L2.
  assert (ST : forall n, bt_j1vel (ret (S n)) = bt_j1vel (ret n) + dt / 2 * (bt_j1acc (ret (S n)) + bt_j1acc (ret n)) /\
    bt_j1pos (ret (S n)) = bt_j1pos (ret n) + dt / 2 * (bt_j1vel (ret (S n)) + bt_j1vel (ret n)) /\
    bt_j1acc (ret (S n)) = - (l * l) * (bt_j1pos (ret (S n)) - pn (S n) / red) - 2 * l * bt_j1vel (ret (S n))).
  { intros n. pose proof (sf_j1 _ _ _ _ _ (step_later n)) as S1. destruct (params (S n)) as [P1 [_ [_ [P2 _]]]]. rewrite P1, P2 in S1.
    destruct U as [_ [U2 _]]. destruct (U2 n) as [_ [_ [_ [_ [_ [_ [_ [_ [F1 [F2 [F3 _]]]]]]]]]]]. rewrite F1, F2, F3 in S1.
    apply jnt1_step in S1; auto. }
  destruct (trapezoid_driven (fun n => bt_j1pos (ret n) - target) (fun n => bt_j1vel (ret n)) (fun n => bt_j1acc (ret n)) (fun n => pn n / red - target) l (dt / 2)) as [A B]; auto.
  - lra.
  - apply target_conv.
  - intros n. apply ST.
  - intros n. destruct (ST n) as [_ [E _]]. simpl. rewrite E at 1. ring.
  - intros n. simpl. destruct (ST n) as [_ [_ E]]. rewrite E at 1. ring.
  - split; [|exact B]. eapply geo_ext; [|eapply geo_eq; [|apply geo_add; [exact A|apply (geo_const target)]]]; [intros n; simpl; ring|ring].
Qed.

Lemma defl_conv : geometric (fun n => bt_dpos (ret n)) (bt_compl (ts 0%nat) * (f * red)).
Proof.
  destruct Hsane as [_ [_ [Ht|Ht]]]; pose proof dt_pos as Hd.
  - set (tau := bt_tau (ts 0%nat)) in *. set (c := bt_compl (ts 0%nat)).
    set (l := / (if Rlt_bool dt (2 * tau) then tau else dt / 2)).
    assert (ST : forall n, 0 < l /\ l * (dt / 2) <= 1 /\
      bt_dvel (ret (S n)) = bt_dvel (ret n) + dt / 2 * (bt_dacc (ret (S n)) + bt_dacc (ret n)) /\
      bt_dpos (ret (S n)) = bt_dpos (ret n) + dt / 2 * (bt_dvel (ret (S n)) + bt_dvel (ret n)) /\
      bt_dacc (ret (S n)) = - (l * l) * (bt_dpos (ret (S n)) - c * (fn (S n) * red)) - 2 * l * bt_dvel (ret (S n))).
    { intros n. pose proof (sf_d _ _ _ _ _ (step_later n)) as S1. destruct (params (S n)) as [P1 [P2 [P3 _]]]. rewrite P1, P2, P3 in S1.
      destruct U as [_ [U2 _]]. destruct (U2 n) as [_ [_ [_ [_ [_ [_ [_ [_ [_ [_ [_ [F1 [F2 [F3 _]]]]]]]]]]]]]]. rewrite F1, F2, F3 in S1.
      apply defl_step in S1; auto. }
    destruct (trapezoid_driven (fun n => bt_dpos (ret n) - c * (f * red)) (fun n => bt_dvel (ret n)) (fun n => bt_dacc (ret n))
      (fun n => c * (fn n * red) - c * (f * red)) l (dt / 2)) as [A B].
    + apply (ST 0%nat).
    + lra.
    + apply (ST 0%nat).
    + eapply geo_ext; [|eapply geo_eq; [|apply geo_add; [apply (geo_scal _ _ (c * red) Hfn)|apply (geo_const (- (c * (f * red))))]]]; [intros n; simpl; ring|ring].
    + intros n. apply ST.
    + intros n. destruct (ST n) as [_ [_ [_ [E _]]]]. simpl. rewrite E at 1. ring.
    + intros n. simpl. destruct (ST n) as [_ [_ [_ [_ E]]]]. rewrite E at 1. ring.
    + eapply geo_ext; [|eapply geo_eq; [|apply geo_add; [exact A|apply (geo_const (c * (f * red)))]]]; [intros n; simpl; ring|ring].
  - eapply geo_ext; [|eapply geo_eq; [|apply (geo_scal _ _ (bt_compl (ts 0%nat) * red) Hfn)]]; [|ring]. intros n. destruct (step_of n) as [d [S1 _]]. pose proof (sf_d _ _ _ _ _ S1) as S2.
    destruct (params n) as [P1 [P2 [P3 _]]]. rewrite P1, P2, P3, <- Ht in S2. unfold belt_defl in S2.
    change (neqb 0 nzero) with (Req_bool 0 0) in S2. rewrite Req_bool_true in S2 by reflexivity. injection S2 as E _ _. simpl. rewrite <- E. simpl. fold red. ring.
Qed.

Lemma joint_conv : geometric (fun n => bt_jpos (ret n)) (static_joint (ts 0%nat) p f) /\ geometric (fun n => bt_jvel (ret n)) 0.
Proof.
  destruct j1_conv as [J1 J2]. pose proof defl_conv as DC. destruct Hsane as [_ [Hc _]]. pose proof dt_pos as Hd.
  unfold static_joint. fold red. fold target.
  destruct (Req_EM_T (bt_lcombo (ts 0%nat)) 0) as [E|E].
  - assert (ST : forall n, bt_jpos (ret n) = bt_j1pos (ret n) /\ bt_jvel (ret n) = bt_j1vel (ret n)).
    { intros n. destruct (step_of n) as [d [S1 _]]. pose proof (sf_j _ _ _ _ _ S1) as S2. destruct (params n) as [_ [_ [_ [_ P5]]]].
      rewrite P5, E in S2. unfold belt_combine in S2. change (neqb 0 nzero) with (Req_bool 0 0) in S2.
      rewrite Req_bool_true in S2 by reflexivity. injection S2 as A B. auto. }
    split; [eapply geo_eq; [|eapply geo_ext; [|exact J1]]; [ring|]|eapply geo_ext; [|exact J2]]; intros n; simpl; symmetry; apply ST.
  - set (lc := bt_lcombo (ts 0%nat)) in *. assert (Hl : 0 < lc) by lra.
    set (l := capped dt lc). destruct (capped_bound dt _ Hd Hl) as [L1 L2]. fold l in L1, L2.
    set (D := bt_compl (ts 0%nat) * (f * red)) in *. set (X := target - D).
    assert (ST : forall n, bt_jpos (ret (S n)) = bt_jpos (ret n) + dt / 2 * (bt_jvel (ret (S n)) + bt_jvel (ret n)) /\
      bt_jvel (ret (S n)) = bt_j1vel (ret (S n)) + l * ((pn (S n) / red - bt_dpos (ret (S n))) - bt_jpos (ret (S n)))).
    { intros n. pose proof (sf_j _ _ _ _ _ (step_later n)) as S1. destruct (params (S n)) as [P1 [_ [_ [_ P5]]]]. rewrite P1, P5 in S1.
      destruct U as [_ [U2 _]]. destruct (U2 n) as [_ [_ [_ [_ [_ [_ [_ [_ [_ [_ [_ [_ [_ [_ [F1 F2]]]]]]]]]]]]]]]. rewrite F1, F2 in S1.
      apply combine_step in S1; auto. }
    set (w := fun n => bt_j1vel (ret n) + l * ((D - bt_dpos (ret n)) + (pn n / red - target))).
    assert (W : geometric w 0).
    { eapply geo_ext; [|eapply geo_eq; [|apply geo_add; [exact J2|eapply (geo_scal _ _ l), geo_add; [apply geo_add; [apply (geo_const D)|apply (geo_scal _ _ (-1) DC)]|exact target_conv]]]];
        [intros n; unfold w; simpl; ring|simpl; ring]. }
    assert (W1 : geometric (fun n => w (S n)) 0).
    { destruct W as [C [q [Q H]]]. exists (C * q), q. split; auto. intros n. specialize (H (S n)). simpl in H. rewrite Rmult_assoc. exact H. }
    assert (W2 : geometric (fun n => w (S (S n))) 0).
    { destruct W1 as [C [q [Q H]]]. exists (C * q), q. split; auto. intros n. specialize (H (S n)). simpl in H. rewrite Rmult_assoc. exact H. }
    assert (V : forall n, bt_jvel (ret (S n)) = w (S n) - l * (bt_jpos (ret (S n)) - X)).
    { intros n. destruct (ST n) as [_ Q]. rewrite Q. unfold w, X. ring. }
    assert (Y : geometric (fun n => bt_jpos (ret (S n)) - X) 0).
    { assert (P : 0 < l * (dt / 2)) by nra.
      set (rho := (1 - l * (dt / 2)) / (1 + l * (dt / 2))).
      assert (Hrho : rho * (1 + l * (dt / 2)) = 1 - l * (dt / 2)) by (unfold rho; field; lra).
      apply (geo_rec _ (fun n => dt / 2 / (1 + l * (dt / 2)) * (w (S (S n)) + w (S n))) rho).
      - apply rho_bound; auto. lra.
      - eapply geo_eq; [|apply geo_scal, geo_add; [exact W2|exact W1]]. ring.
      - intros n. apply Rmult_eq_reg_r with (1 + l * (dt / 2)); [|lra].
        transitivity ((1 - l * (dt / 2)) * (bt_jpos (ret (S n)) - X) + dt / 2 * (w (S (S n)) + w (S n))).
        + destruct (ST (S n)) as [Q _]. rewrite (V (S n)), (V n) in Q.
          generalize dependent (w (S (S n))). generalize dependent (w (S n)). generalize dependent (bt_jpos (ret (S (S n)))). generalize dependent (bt_jpos (ret (S n))).
          intros x0 x1 w0 w1 Q. clear - Q. assert (Q2 : x1 - x0 = dt / 2 * (w1 - l * (x1 - X) + (w0 - l * (x0 - X)))) by lra.
          ring_simplify. ring_simplify in Q2. lra.
        + rewrite <- Hrho. field. lra. }
    assert (Y0 : geometric (fun n => bt_jpos (ret n) - X) 0) by (apply geo_shift; exact Y).
    split.
    + eapply geo_ext; [|eapply geo_eq; [|apply geo_add; [exact Y0|apply (geo_const X)]]]; [intros n; simpl; ring|unfold X; ring].
    + apply geo_shift. eapply geo_ext; [|eapply geo_eq; [|apply geo_add; [exact W1|apply (geo_scal _ _ (- l) Y)]]]; [intros n; simpl; rewrite V; ring|ring].
Qed.
End Converge.

(** The motor at rest at [p] with effort [f]. *)
Definition updates dbg a j (p f ref : R) := updates_of dbg a j ref (fun _ => p) (fun _ => f).

(** With position updates at a constant positive rate, from any filter state whatsoever, while motor position and measured
    effort settle geometrically at [p] and [f], the reported joint position converges geometrically to the static equilibrium
    for them (motor position minus compliance times force, in joint units, plus the joint's reference) and the velocity to zero. *)
Theorem C47_follows_settling_motor : forall dbg a j p f ref pn fn s0 delta (ts ret : nat -> belt R) (ms out : nat -> mem R),
  updates_of dbg a j ref pn fn s0 delta ts ret ms out -> geometric pn p -> geometric fn f -> (0 < delta)%Z -> sane (ts 0%nat) ->
  geometric (fun n => position (m_js (out n) j)) (static_joint (ts 0%nat) p f + ref) /\
  geometric (fun n => velocity (m_js (out n) j)) 0.
Proof.
  intros dbg a j p f ref pn fn s0 delta ts ret ms out U HP HF Hd Hs.
  destruct (joint_conv dbg a j p f ref pn fn s0 delta ts ret ms out U HP HF Hd Hs) as [A B].
  split.
  - eapply geo_ext; [|apply geo_add; [exact A|apply (geo_const ref)]]. intros n. simpl.
    destruct (step_of dbg a j ref pn fn s0 delta ts ret ms out U n) as [d [_ [_ [_ [E _]]]]]. auto.
  - eapply geo_ext; [|exact B]. intros n. simpl.
    destruct (step_of dbg a j ref pn fn s0 delta ts ret ms out U n) as [d [_ [_ [_ [_ E]]]]]. auto.
Qed.

(** C47: in particular with the motor held at [p] with effort [f]. *)
Theorem C47_converges : forall dbg a j p f ref s0 delta (ts ret : nat -> belt R) (ms out : nat -> mem R),
  updates dbg a j p f ref s0 delta ts ret ms out -> (0 < delta)%Z -> sane (ts 0%nat) ->
  geometric (fun n => position (m_js (out n) j)) (static_joint (ts 0%nat) p f + ref) /\
  geometric (fun n => velocity (m_js (out n) j)) 0.
Proof.
  intros dbg a j p f ref s0 delta ts ret ms out U Hd Hs. eapply C47_follows_settling_motor; eauto; apply geo_const.
Qed.

(** ** C46: equilibria and the rigid belt *)

(** The forward filter at rest stays at rest, for every time step (even zero or negative), and reports the static
    joint position with zero velocity. *)
Theorem C46_equilibrium : forall dbg t a j m,
  let p := a_position (m_act m a) in let f := a_last_measured_effort (m_act m a) in
  at_rest t p f ->
  exists t' m', belt_propagatePosition dbg t [a] [j] m = Ok (t', m') /\ at_rest t' p f /\
    position (m_js m' j) = static_joint t p f + reference_position (m_js m j) /\ velocity (m_js m' j) = 0 /\
    measured_effort (m_js m' j) = f * bt_red t.
Proof.
  intros dbg t a j m p f [M1 [M2 [J1 [J2 [J3 [D1 [D2 [D3 [X1 X2]]]]]]]]].
  destruct (position_step dbg t a j m) as [t' [m' [E [S1 [L [O [P [V F]]]]]]]]. fold p in S1. fold f in S1, F.
  set (dt := ntosec _) in *.
  destruct (sf_par _ _ _ _ _ S1) as [R1 [R2 [R3 [R4 R5]]]].
  pose proof (sf_j1 _ _ _ _ _ S1) as Q1. pose proof (sf_d _ _ _ _ _ S1) as Q2. pose proof (sf_j _ _ _ _ _ S1) as Q3.
  rewrite J1, J2, J3 in Q1. unfold belt_jnt1, nhalf, nquarter, ntwo in Q1. simpl in Q1.
  match type of Q1 with context [if ?b then ?x else ?y] => set (lam := if b then x else y) in Q1; clearbody lam end.
  assert (A1 : forall lam D, (lam * lam * (p / bt_red t - (p / bt_red t + 1 / 2 * dt * (0 + 1 / 2 * dt * 0 + 0))) - 2 * lam * (0 + 1 / 2 * dt * 0)) / D = 0).
  { intros l D. unfold Rdiv. ring. }
  rewrite A1 in Q1. injection Q1 as Q11 Q12 Q13.
  assert (K1 : bt_j1pos t' = p / bt_red t) by (rewrite <- Q11; ring).
  assert (K2 : bt_j1vel t' = 0) by (rewrite <- Q12; ring).
  rewrite D1, D2, D3 in Q2.
  assert (K3 : bt_dpos t' = bt_compl t * (f * bt_red t) /\ bt_dvel t' = 0 /\ bt_dacc t' = 0).
  { unfold belt_defl, nhalf, nquarter, ntwo in Q2. destruct (neqb (bt_tau t) nzero); simpl in Q2.
    - injection Q2 as <- <- <-. auto.
    - match type of Q2 with context [if ?b then ?x else ?y] => set (k := if b then x else y) in Q2; clearbody k end.
      set (c := bt_compl t * (f * bt_red t)) in *.
      assert (A2 : forall D, (c - (c + 1 / 2 * dt * (0 + 1 / 2 * dt * 0 + 0)) - 2 * k * (0 + 1 / 2 * dt * 0)) / D = 0).
      { intros D. unfold Rdiv. ring. }
      rewrite A2 in Q2. injection Q2 as <- <- <-. repeat split; ring. }
  destruct K3 as [K3 [K4 K5]].
  assert (K6 : bt_jpos t' = static_joint t p f /\ bt_jvel t' = 0).
  { rewrite K1, K2, K3, X1, X2 in Q3. unfold belt_combine, nhalf, static_joint in *.
    change (neqb (bt_lcombo t) nzero) with (Req_bool (bt_lcombo t) 0) in Q3.
    destruct (Req_EM_T (bt_lcombo t) 0) as [Z|Z].
    - rewrite Req_bool_true in Q3 by auto. injection Q3 as <- <-. split; ring.
    - rewrite Req_bool_false in Q3 by auto. simpl in Q3.
      match type of Q3 with context [if ?b then ?x else ?y] => set (k := if b then x else y) in Q3; clearbody k end.
      set (c := bt_compl t * (f * bt_red t)) in *.
      assert (A3 : forall D, (0 + k * (p / bt_red t - c - (p / bt_red t - c + 1 / 2 * dt * 0))) / D = 0).
      { intros D. unfold Rdiv. ring. }
      rewrite A3 in Q3. injection Q3 as <- <-. split; ring. }
  destruct K6 as [K6 K7].
  exists t', m'. split; [exact E|].
  assert (SJ : static_joint t' p f = static_joint t p f) by (unfold static_joint; rewrite R1, R2, R5; reflexivity).
  split; [|rewrite P, V, F, K6, K7; repeat split; reflexivity].
  unfold at_rest. rewrite SJ, R1, R2, K1, K2, K3, K4, K5, K6, K7, (sf_mpos _ _ _ _ _ S1), (sf_mvel _ _ _ _ _ S1), M1.
  repeat split; auto.
  - destruct (Rlt_bool 0 dt); [unfold Rdiv; ring|reflexivity].
Qed.

(** A zero time step repeats the previous estimate. *)
Theorem C46_zero_step : forall dbg t a j m, sane t -> 0 < bt_lcombo t ->
  a_sample_timestamp (m_act m a) = bt_last_ts t ->
  exists t' m', belt_propagatePosition dbg t [a] [j] m = Ok (t', m') /\
    position (m_js m' j) = bt_jpos t + reference_position (m_js m j) /\ bt_j1pos t' = bt_j1pos t /\ bt_j1vel t' = bt_j1vel t.
Proof.
  intros dbg t a j m [Hl _] Hc Ht.
  destruct (position_step dbg t a j m) as [t' [m' [E [S1 [L [O [P [V F]]]]]]]].
  rewrite Ht, Z.sub_diag, tosec_R in S1. replace (0 / 1000000000) with 0 in S1 by lra.
  exists t', m'. split; [exact E|]. rewrite P.
  pose proof (sf_j1 _ _ _ _ _ S1) as Q1. pose proof (sf_j _ _ _ _ _ S1) as Q3.
  unfold belt_combine, nhalf in Q3. change (neqb (bt_lcombo t) nzero) with (Req_bool (bt_lcombo t) 0) in Q3.
  rewrite Req_bool_false in Q3 by lra. simpl in Q3. injection Q3 as Q3 _.
  unfold belt_jnt1, nhalf, nquarter, ntwo in Q1. simpl in Q1. injection Q1 as Q11 Q12 _.
  split; [rewrite <- Q3; f_equal; ring|]. split; [rewrite <- Q11; ring|rewrite <- Q12; ring].
Qed.

(** Rigid belt (zero compliance or massless motor): the simulated transmission is exactly the simple one. *)
Definition rigid (t : belt R) : Prop := bt_compl t = 0 \/ bt_tau t = 0.
Lemma rigid_true t : rigid t <-> belt_rigid t = true.
Proof.
  unfold rigid, belt_rigid. change (neqb (bt_compl t) nzero) with (Req_bool (bt_compl t) 0). change (neqb (bt_tau t) nzero) with (Req_bool (bt_tau t) 0).
  destruct (Req_bool_spec (bt_compl t) 0), (Req_bool_spec (bt_tau t) 0); simpl; intuition discriminate.
Qed.

Theorem C46_rigid_backwards : forall dbg e t a j m, rigid t -> js_joint (m_js m j) <> None ->
  exists t1 m1,
    belt_propagateEffortBackwards dbg t [a] [j] m = Ok (t1, m1) /\
    commanded_effort (m_js m1 j) = a_effort (m_act m a) * bt_red t /\ only_joints [j] m m1 /\ exists t2 m2,
    belt_propagatePositionBackwards dbg e t1 [j] [a] m1 = Ok (t2, m2) /\
    a_position (m_act m2 a) = (position (m_js m j) - reference_position (m_js m j)) * bt_red t /\
    a_velocity (m_act m2 a) = velocity (m_js m j) * bt_red t /\
    (bt_red t <> 0 -> a_last_measured_effort (m_act m2 a) = a_effort (m_act m a)).
Proof.
  intros dbg e t a j m HR Hj. pose proof (proj1 (rigid_true t) HR) as HB.
  unfold belt_propagateEffortBackwards. rewrite bsizes. cbn [bind vget nth_error]. rewrite HB.
  eexists. eexists. split; [reflexivity|].
  split; [cbn [js_upd m_js]; unfold upd; rewrite Nat.eqb_refl; reflexivity|].
  split; [split; [reflexivity|]; intros q Hq; simpl in Hq; cbn [js_upd m_js]; unfold upd; destruct (Nat.eqb_spec q j); [subst; tauto|reflexivity]|].
  unfold belt_propagatePositionBackwards. rewrite bsizes. cbn [bind vget nth_error].
  match goal with |- context [belt_rigid ?t1] => change (belt_rigid t1) with (belt_rigid t) end. rewrite HB.
  match goal with |- context [sim_clock e ?x ?y] => destruct (sim_clock e x y) as [[ini start] stamp] end.
  match goal with |- context [simcal_mem dbg ?c j a ?mm] => destruct (simcal_total dbg c j a mm) as [c' [a' [E K]]] end.
  { cbn [js_upd act_upd m_js]. unfold upd. rewrite !Nat.eqb_refl. exact Hj. }
  rewrite E. cbn [bind]. eexists. eexists. split; [reflexivity|].
  apply sbc_fields in K. destruct K as [K1 [K2 [K3 _]]].
  cbn [act_upd js_upd m_act m_js] in *. unfold upd in *. rewrite !Nat.eqb_refl in *.
  rewrite K1, K2, K3. split; [reflexivity|]. split; [reflexivity|]. intros Hr. cbn. field. auto.
Qed.

(** ** The simulated elastic belt: a motor held against a fixed joint settles at the deflection the forward
    estimator subtracts, and the joint then feels the whole motor force. *)
Theorem C46_simulated_equilibrium : forall dbg e t a j m, ~ rigid t -> 0 < bt_tau t -> bt_red t <> 0 -> js_joint (m_js m j) <> None ->
  let X := position (m_js m j) - reference_position (m_js m j) in
  let F := a_effort (m_act m a) * bt_red t in
  (bt_bts t <= a_sample_timestamp (m_act m a))%Z ->
  velocity (m_js m j) = 0 -> bt_bjpos t = X -> bt_bjvel t = 0 ->
  bt_bmpos t = X + bt_compl t * F -> bt_bmvel t = 0 -> bt_bmacc t = 0 ->
  exists t1 m1,
    belt_propagateEffortBackwards dbg t [a] [j] m = Ok (t1, m1) /\ commanded_effort (m_js m1 j) = F /\ exists t2 m2,
    belt_propagatePositionBackwards dbg e t1 [j] [a] m1 = Ok (t2, m2) /\
    bt_bmpos t2 = X + bt_compl t * F /\ bt_bmvel t2 = 0 /\ bt_bmacc t2 = 0 /\
    (0 < bt_lcombo t -> static_joint t (a_position (m_act m2 a)) (a_last_measured_effort (m_act m2 a)) = X).
Proof.
  intros dbg e t a j m HR Ht Hr Hj X F Hts V0 B1 B2 B3 B4 B5.
  assert (HB : belt_rigid t = false) by (destruct (belt_rigid t) eqn:Q; auto; apply rigid_true in Q; contradiction).
  assert (Hc : bt_compl t <> 0) by (unfold rigid in HR; tauto).
  unfold belt_propagateEffortBackwards. rewrite bsizes. cbn [bind vget nth_error]. rewrite HB, B1, B2, B3, B4, B5.
  change (nmul (a_effort (m_act m a)) (bt_red t)) with F.
  set (hd := nmul nhalf (ntosec _)).
  assert (Hhd : 0 <= hd).
  { unfold hd, nhalf. rewrite tosec_R. simpl. assert (0 <= IZR (a_sample_timestamp (m_act m a) - bt_bts t)) by (apply IZR_le; lia). lra. }
  set (tau := if nltb hd (bt_tau t) then bt_tau t else hd).
  assert (Htau : 0 < tau). { unfold tau. change (nltb hd (bt_tau t)) with (Rlt_bool hd (bt_tau t)). destruct (Rlt_bool_spec hd (bt_tau t)); lra. }
  assert (D : tau * tau + 2 * tau * hd + hd * hd <> 0) by nra.
  set (c := bt_compl t) in *.
  eexists. eexists. split; [reflexivity|].
  split. { cbn [js_upd m_js]. unfold upd. rewrite Nat.eqb_refl. clearbody tau hd. unfold ntwo. cbn - [IZR]. field. auto. }
  unfold belt_propagatePositionBackwards. rewrite bsizes. cbn [bind vget nth_error].
  match goal with |- context [belt_rigid ?t1] => change (belt_rigid t1) with (belt_rigid t) end. rewrite HB.
  cbn [bt_bhalf bt_bforce bt_bmpos bt_bmvel bt_bmacc bt_tau bt_compl set_bt_bforce set_bt_bhalf set_bt_bts bt_red].
  rewrite B3, B4, B5. fold c. fold tau.
  cbn [js_upd m_js]. unfold upd at 1 2 3 4 5 6. rewrite !Nat.eqb_refl.
  cbn [position reference_position velocity set_commanded_effort]. rewrite V0.
  change (nsub (position (m_js m j)) (reference_position (m_js m j))) with X.
  match goal with |- context [sim_clock e ?x ?y] => destruct (sim_clock e x y) as [[ini start] stamp] end.
  match goal with |- context [simcal_mem dbg ?k j a ?mm] => destruct (simcal_total dbg k j a mm) as [c' [a' [E K]]] end.
  { cbn [js_upd act_upd m_js]. unfold upd. rewrite !Nat.eqb_refl. exact Hj. }
  rewrite E. cbn [bind]. eexists. eexists. split; [reflexivity|]. clear E.
  apply sbc_fields in K. destruct K as [K1 [K2 [K3 _]]].
  cbn [act_upd js_upd m_act m_js] in *. unfold upd in *. rewrite !Nat.eqb_refl in *.
  rewrite K1, K3. clear K1 K2 K3. clearbody tau hd F. unfold ntwo, static_joint.
  cbn - [IZR]. rewrite V0. fold X. clearbody X.
  assert (A4 : (F - (2 * tau * (0 + hd * (0 + 0) - 0) + (X + c * F + hd * (0 + (0 + hd * (0 + 0))) - X)) / c) * c / (tau * tau + 2 * tau * hd + hd * hd) = 0).
  { field. auto. }
  rewrite A4. split; [ring|]. split; [ring|]. split; [reflexivity|].
  intros Hl. destruct (Req_EM_T (bt_lcombo t) 0); [lra|]. fold c. field. auto.
Qed.

(** ** C48: the effort path *)

(** The actuator gets the commanded joint effort plus the damping force, over the reduction; nothing else changes -
    in particular command_.enable_ is not set. *)
Theorem C48_effort : forall dbg t a j m, bt_red t <> 0 -> exists t' m',
  belt_propagateEffort dbg t [j] [a] m = Ok (t', m') /\
  a_effort (m_act m' a) * bt_red t = commanded_effort (m_js m j) + bt_damp t' /\
  a_enable (m_act m' a) = a_enable (m_act m a) /\ only_actuators [a] m m' /\ only_command (m_act m a) (m_act m' a) /\ same_filter t t'.
Proof.
  intros dbg t a j m Hr. unfold belt_propagateEffort. rewrite bsizes. cbn [bind vget nth_error]. eexists. eexists. split; [reflexivity|].
  cbn [act_upd m_act m_js]. unfold upd. rewrite !Nat.eqb_refl. split; [cbn; field; auto|]. split; [reflexivity|].
  split; [split; [reflexivity|]; intros p Hp; simpl in Hp; cbn [act_upd m_act]; unfold upd; destruct (Nat.eqb_spec p a); [subst; tauto|reflexivity]|].
  split; [exists (a_enable (m_act m a)); eexists; destruct (m_act m a); reflexivity|]. repeat split.
Qed.

(** Without damping gain, and once no damping force is stored, joint effort -> actuator effort -> joint effort is the
    identity over a rigid belt. *)
Theorem C48_undamped_roundtrip : forall dbg t a j m, bt_red t <> 0 -> bt_kd t = 0 -> bt_damp t = 0 -> rigid t ->
  exists t1 m1 t2 m2,
    belt_propagateEffort dbg t [j] [a] m = Ok (t1, m1) /\ belt_propagateEffortBackwards dbg t1 [a] [j] m1 = Ok (t2, m2) /\
    a_effort (m_act m1 a) * bt_red t = commanded_effort (m_js m j) /\ bt_damp t1 = 0 /\
    commanded_effort (m_js m2 j) = commanded_effort (m_js m j).
Proof.
  intros dbg t a j m Hr Hk Hd HR.
  assert (Z : belt_damping t = 0).
  { unfold belt_damping. destruct (neqb (bt_lmotor t) nzero).
    - rewrite Hk. simpl. ring.
    - rewrite Hd, Hk. simpl. unfold Rdiv. ring. }
  pose proof (proj1 (rigid_true t) HR) as HB.
  unfold belt_propagateEffort, belt_propagateEffortBackwards. rewrite !bsizes. cbn [bind vget nth_error]. rewrite Z.
  eexists. eexists. eexists. eexists. split; [reflexivity|].
  match goal with |- context [belt_rigid ?t1] => change (belt_rigid t1) with (belt_rigid t) end. rewrite HB.
  split; [reflexivity|]. cbn [act_upd js_upd m_act m_js]. unfold upd. rewrite !Nat.eqb_refl. cbn. split; [field; auto|]. split; [reflexivity|field; auto].
Qed.

(** Plain damping (zero cutoff bandwidth, gain >= 0) never feeds energy into the motor. *)
Theorem C48_plain_damping_dissipates : forall dbg t a j m, bt_red t <> 0 -> bt_lmotor t = 0 -> 0 <= bt_kd t ->
  exists t' m', belt_propagateEffort dbg t [j] [a] m = Ok (t', m') /\
    (a_effort (m_act m' a) * bt_red t - commanded_effort (m_js m j)) * bt_mvel t <= 0.
Proof.
  intros dbg t a j m Hr Hl Hk. destruct (C48_effort dbg t a j m Hr) as [t' [m' [E [Q _]]]]. exists t', m'. split; [exact E|].
  rewrite Q. assert (D : bt_damp t' = - bt_kd t * bt_mvel t).
  { unfold belt_propagateEffort in E. rewrite bsizes in E. cbn [bind vget nth_error] in E. injection E as <- _. simpl.
    unfold belt_damping. change (neqb (bt_lmotor t) nzero) with (Req_bool (bt_lmotor t) 0). rewrite Req_bool_true by auto. reflexivity. }
  rewrite D. nra.
Qed.

(** High-pass damping is bounded and fades: each cycle the stored force shrinks by the factor
    (1 - lam dt/2)/(1 + lam dt/2) and is driven only by the change of the motor velocity. *)
Theorem C48_damping_fades : forall dbg t a j m, 0 < bt_lmotor t -> 0 < bt_dt t -> 0 <= bt_kd t ->
  exists t' m', belt_propagateEffort dbg t [j] [a] m = Ok (t', m') /\
    exists rho, 0 <= rho < 1 /\ Rabs (bt_damp t') <= rho * Rabs (bt_damp t) + bt_kd t * Rabs (bt_dmvel t).
Proof.
  intros dbg t a j m Hl Hd Hk. unfold belt_propagateEffort. rewrite bsizes. cbn [bind vget nth_error]. eexists. eexists. split; [reflexivity|].
  simpl. unfold belt_damping. change (neqb (bt_lmotor t) nzero) with (Req_bool (bt_lmotor t) 0). rewrite Req_bool_false by lra.
  change (if nltb (nmul (bt_dt t) (bt_lmotor t)) ntwo then bt_lmotor t else ndiv ntwo (bt_dt t)) with (capped (bt_dt t) (bt_lmotor t)).
  destruct (capped_bound _ _ Hd Hl) as [C1 C2]. set (l := capped _ _) in *. clearbody l.
  unfold nhalf. simpl. set (x := l * (bt_dt t / 2)) in *.
  assert (X0 : 0 < x) by (unfold x; nra).
  replace (1 / 2 * bt_dt t * l) with x by (unfold x; field).
  exists ((1 - x) / (1 + x)). split.
  - split; [apply Rmult_le_pos; [lra|left; apply Rinv_0_lt_compat; lra]|].
    apply Rmult_lt_reg_r with (1 + x); [lra|]. unfold Rdiv. rewrite Rmult_assoc, Rinv_l by lra. lra.
  - replace (((1 - x) * bt_damp t - bt_kd t * bt_dmvel t) / (1 + x)) with ((1 - x) / (1 + x) * bt_damp t + (- (bt_kd t * bt_dmvel t) / (1 + x))) by (field; lra).
    eapply Rle_trans; [apply Rabs_triang|]. rewrite Rabs_mult. apply Rplus_le_compat.
    + right. f_equal. apply Rabs_pos_eq. apply Rmult_le_pos; [lra|left; apply Rinv_0_lt_compat; lra].
    + unfold Rdiv. rewrite Rabs_mult, Rabs_Ropp, Rabs_mult, (Rabs_pos_eq (bt_kd t)), (Rabs_pos_eq (/ (1 + x))) by (try (left; apply Rinv_0_lt_compat; lra); lra).
      assert (I1 : / (1 + x) <= 1) by (rewrite <- Rinv_1; apply Rinv_le_contravar; lra).
      assert (0 <= bt_kd t * Rabs (bt_dmvel t)) by (apply Rmult_le_pos; [lra|apply Rabs_pos]).
      nra.
Qed.

(** Non-vacuity: a described belt transmission is sane, starts at rest at the origin, and histories exist. *)
Local Open Scope string_scope.
Definition ex_belt_doc : xml := Elem "transmission" [("name", "b")] None
  [Elem "joint" [("name", "j")] None []; Elem "actuator" [("name", "a")] None [];
   Elem "mechanicalReduction" [] (Some "2") [];
   Elem "compensator" [("k_belt", "4"); ("mass_motor", "1"); ("kd_motor", "1"); ("lambda_motor", "1"); ("lambda_joint", "1"); ("lambda_combined", "1")] None []].
Definition ex_bp : parsers R := mkParsers (fun s => if String.eqb s "1" then 1 else if String.eqb s "2" then 2 else 4) (fun _ => None) (fun _ => None).
Definition ex_brv : rview R := mkRview (fun n => Some (mkUjoint n JREVOLUTE None None None)) (fun n => Some 0%nat).
Definition blank_belt : belt R := mkBelt "" [] [] 0 0 0 0 0 0 0 0 0 0 0 0 0 0 0 0 0 0 0 0 0 0 0 0 0 0 0 0 0 false 0 (new_calsim 0 0 0 0 false false).

Lemma updates_exist dbg a j (t0 : belt R) A J s0 delta : exists ts ret ms out, ts 0%nat = t0 /\
  updates dbg a j (a_position A) (a_last_measured_effort A) (reference_position J) s0 delta ts ret ms out.
Proof.
  pose (mm := fun n : nat => mkMem (fun _ => set_a_sample_timestamp (s0 + Z.of_nat n * delta)%Z A) (fun _ => J)).
  pose (step := fun (n : nat) (t : belt R) => match belt_propagatePosition dbg t [a] [j] (mm n) with Ok (t', m') => (t', m') | _ => (t, mm n) end).
  pose (ts := fix ts n := match n with O => t0 | S k => fst (step k (ts k)) end).
  exists ts, (fun n => fst (step n (ts n))), mm, (fun n => snd (step n (ts n))).
  split; [reflexivity|]. split; [|split].
  - intros n. unfold step. destruct (position_step dbg (ts n) a j (mm n)) as [t' [m' [E _]]]. rewrite E. reflexivity.
  - intros n. cbn [ts]. repeat split.
  - intros n. repeat split.
Qed.

Example C47_ex : exists t h, belt_initXml ex_bp ex_brv ex_belt_doc (fun _ => new_actuator 0) blank_belt = Ok (Some t, h) /\
  sane t /\ at_rest t 0 0 /\ bt_compl t = 1 / 4 /\ static_joint t 6 8 = - 1 /\
  (exists ts ret ms out, ts 0%nat = t /\ updates true 0 0 6 8 0 0 1000000 ts ret ms out).
Proof.
  eexists. eexists. split; [reflexivity|].
  assert (C : forall x y : R, (if Rlt_bool 0 4 then x else y) = x) by (intros; rewrite Rlt_bool_true; [reflexivity|lra]).
  split; [|split; [|split; [|split]]].
  - unfold sane. cbn. split; [lra|]. split; [lra|]. apply sqrt_pos.
  - unfold at_rest, static_joint. cbn. rewrite C. destruct (Req_EM_T 1 0); [lra|]. repeat split; try lra.
  - cbn. apply C.
  - unfold static_joint. cbn. rewrite C. destruct (Req_EM_T 1 0); lra.
  - match goal with |- exists ts ret ms out, _ = ?t /\ _ => 
      pose proof (updates_exist true 0 0 t (set_a_position 6 (set_a_last_measured_effort 8 (new_actuator 0))) (set_reference_position 0 (new_jointstate 0)) 0 1000000) as UE end.
    exact UE.
Qed.
