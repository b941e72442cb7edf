(** C49-C51: the gripper transmission (real arithmetic). *)
From Coq Require Import List Reals Arith Bool ZArith Lia Lra Psatz String.
From Flocq Require Import Core.Raux.
From Coquelicot Require Import Coquelicot.
From Verif.Model Require Import Base Num Joint Hardware Xml Transmission Gripper.
From Verif.Spec Require Import TransmissionSpec GripperSpec.
From Verif.Proofs Require Import GripperLoad TransmissionProofs.
Import ListNotations.
Local Open Scope R_scope.

Lemma PI_pos2 : 0 < 2 * PI. Proof. pose proof PI_RGT_0. lra. Qed.

(** ** The trigonometry *)
Lemma cos_law t p phi : 0 < gr_a t -> 0 < gr_b t -> linkage t p phi ->
  gap_u t (revolutions t p) = cos phi.
Proof.
  intros Ha Hb [_ L]. unfold gap_u, sq, ntwo. cbn - [IZR].
  assert (Hab : 0 < gr_a t * gr_b t) by nra.
  replace (revolutions t p * gr_screw t / gr_gear t) with (revolutions t p * pitch t) by (unfold pitch, Rdiv; ring).
  fold (screw_length t p).
  replace ((gr_a t * gr_a t + gr_b t * gr_b t - gr_h t * gr_h t - screw_length t p * screw_length t p) / (2 * gr_a t * gr_b t)) with (cos phi).
  2:{ apply Rmult_eq_reg_r with (2 * gr_a t * gr_b t); [|nra].
      transitivity (gr_a t * gr_a t + gr_b t * gr_b t - gr_h t * gr_h t - screw_length t p * screw_length t p); [lra|field; split; lra]. }
  pose proof (COS_bound phi) as [C1 C2].
  rewrite Rlt_bool_false by lra. rewrite Rlt_bool_false by lra. reflexivity.
Qed.

Lemma sin_nonneg phi : 0 <= phi <= PI -> 0 <= sin phi.
Proof. intros. apply sin_ge_0; lra. Qed.
Lemma sqrt_sin phi : 0 <= phi <= PI -> sqrt (1 - cos phi * cos phi) = sin phi.
Proof.
  intros H. pose proof (sin2_cos2 phi) as E. unfold Rsqr in E.
  replace (1 - cos phi * cos phi) with (sin phi * sin phi) by lra. apply sqrt_square, sin_nonneg, H.
Qed.
Lemma sqrt_cos th : - (PI / 2) <= th <= PI / 2 -> sqrt (1 - sin th * sin th) = cos th.
Proof.
  intros H. pose proof (sin2_cos2 th) as E. unfold Rsqr in E.
  replace (1 - sin th * sin th) with (cos th * cos th) by lra. apply sqrt_square, cos_ge_0; lra.
Qed.

Lemma TOL_R : TOL (T := R) = 1 / 100000.
Proof. unfold TOL, ndec. cbn. reflexivity. Qed.

Lemma gap_position t p phi v e : 0 < gr_a t -> 0 < gr_b t -> linkage t p phi ->
  let g := computeGapStates t (revolutions t p) v e in
  g_theta g = finger_angle t phi /\ g_size g * 2 = gap_of t phi.
Proof.
  intros Ha Hb L. pose proof (cos_law t p phi Ha Hb L) as E. destruct L as [L _].
  cbn [computeGapStates g_theta g_size]. rewrite E. cbn - [IZR]. rewrite acos_cos by exact L. fold (finger_angle t phi).
  split; [reflexivity|]. unfold gap_of. ring.
Qed.

Lemma gap_jacobian t p phi v e : mechanism t -> linkage t p phi -> regular t p phi ->
  let g := computeGapStates t (revolutions t p) v e in
  0 < sin phi /\ 0 < cos (finger_angle t phi) /\
  g_dtheta_dMR g = screw_length t p * pitch t / (gr_a t * gr_b t * sin phi) /\
  g_dt_dMR g = gr_r t * cos (finger_angle t phi) * g_dtheta_dMR g /\
  g_vel g = v * g_dt_dMR g /\ g_eff g = e / g_dt_dMR g * (2 * PI).
Proof.
  intros [Ha [Hb [Hr [Hred [Hs Hg]]]]] L [R1 [R2 [R3 [R4 R5]]]] g.
  pose proof (cos_law t p phi Ha Hb L) as E. destruct L as [L L2].
  assert (S1 : 0 < sin phi). { pose proof (sin_nonneg phi L). destruct (Req_dec (sin phi) 0) as [Z|Z]; [rewrite Z in R4|]; lra. }
  assert (C1 : 0 < cos (finger_angle t phi)) by (apply cos_gt_0; lra).
  split; [exact S1|]. split; [exact C1|]. subst g.
  cbn [computeGapStates g_dtheta_dMR g_dt_dMR g_vel g_eff].
  change (nleb nzero (revolutions t p)) with (Rle_bool 0 (revolutions t p)). rewrite Rle_bool_true by exact R1.
  rewrite E. unfold sq. cbn - [IZR TOL RAD2MR]. rewrite TOL_R, acos_cos by exact L. fold (finger_angle t phi).
  pose proof (sin2_cos2 phi) as SC. unfold Rsqr in SC.
  rewrite Rlt_bool_true by lra. rewrite sqrt_sin by exact L.
  split; [|split; [|split]].
  - unfold screw_length, pitch. field. repeat split; lra.
  - reflexivity.
  - reflexivity.
  - unfold RAD2MR, ntwo. cbn - [IZR]. pose proof PI_RGT_0. unfold Rdiv. rewrite !Rmult_1_l, Rinv_inv. reflexivity.
Qed.

Lemma inverse_position t p phi : mechanism t -> linkage t p phi -> upright t p phi ->
  let '(MR, _, _, _) := inverseGapStates t (gap_of t phi / 2) in MR = revolutions t p.
Proof.
  intros [Ha [Hb [Hr [Hred [Hs Hg]]]]] [L L2] [U1 U2].
  unfold inverseGapStates. cbn - [IZR inverseGapStates1].
  replace ((gap_of t phi / 2 - gr_t0 t) / gr_r t + sin (gr_theta0 t)) with (sin (finger_angle t phi)) by (unfold gap_of; field; auto).
  pose proof (SIN_bound (finger_angle t phi)) as [B1 B2].
  rewrite Rlt_bool_false by lra. rewrite Rlt_bool_false by lra. rewrite asin_sin by lra.
  unfold inverseGapStates1. cbn - [IZR Rlt_bool].
  replace (finger_angle t phi - gr_theta0 t + gr_phi0 t) with phi by (unfold finger_angle; ring).
  replace (- (2) * gr_a t * gr_b t * cos phi - gr_h t * gr_h t + gr_a t * gr_a t + gr_b t * gr_b t) with (screw_length t p * screw_length t p)
    by lra.
  assert (K : forall x, x - gr_L0 t = revolutions t p * pitch t -> gr_gear t / gr_screw t * (x - gr_L0 t) = revolutions t p).
  { intros x ->. unfold pitch. field. split; lra. }
  change (@nzero R num_R) with 0. destruct (Rlt_bool_spec 0 (screw_length t p * screw_length t p)) as [P|P].
  - cbv beta iota zeta. apply K. rewrite sqrt_square by auto. unfold screw_length. ring.
  - cbv beta iota zeta. apply K. assert (screw_length t p = 0) by nra. rewrite <- H. unfold screw_length. ring.
Qed.

Lemma inverse_jacobian t p phi : mechanism t -> linkage t p phi -> regular t p phi ->
  inverseGapStates t (gap_of t phi / 2) =
  (revolutions t p, gr_a t * gr_b t * sin phi / (pitch t * screw_length t p),
   / (gr_r t * cos (finger_angle t phi)),
   gr_a t * gr_b t * sin phi / (pitch t * screw_length t p) / (gr_r t * cos (finger_angle t phi))).
Proof.
  intros M L R.
  assert (UP : upright t p phi) by (destruct R as [_ [R2 [R3 _]]]; unfold upright; lra).
  pose proof (inverse_position t p phi M L UP) as IP.
  destruct (gap_jacobian t p phi 0 0 M L R) as [S1 [C1 _]].
  destruct M as [Ha [Hb [Hr [Hred [Hs Hg]]]]]. destruct L as [L L2]. destruct R as [R1 [R2 [R3 [R4 R5]]]].
  destruct (inverseGapStates t (gap_of t phi / 2)) as [[[x1 x2] x3] x4] eqn:E. rewrite IP in *. clear IP x1.
  unfold inverseGapStates in E. cbn - [IZR inverseGapStates1] in E.
  replace ((gap_of t phi / 2 - gr_t0 t) / gr_r t + sin (gr_theta0 t)) with (sin (finger_angle t phi)) in E by (unfold gap_of; field; auto).
  pose proof (SIN_bound (finger_angle t phi)) as [B1 B2].
  rewrite Rlt_bool_false in E by lra. rewrite Rlt_bool_false in E by lra. rewrite asin_sin in E by lra.
  unfold inverseGapStates1 in E. cbn - [IZR Rlt_bool TOL] in E.
  replace (finger_angle t phi - gr_theta0 t + gr_phi0 t) with phi in E by (unfold finger_angle; ring).
  replace (finger_angle t phi + gr_phi0 t - gr_theta0 t) with phi in E by (unfold finger_angle; ring).
  replace (- (2) * gr_a t * gr_b t * cos phi - gr_h t * gr_h t + gr_a t * gr_a t + gr_b t * gr_b t) with (screw_length t p * screw_length t p) in E
    by lra.
  change (@nzero R num_R) with 0 in E. rewrite Rlt_bool_true in E by nra.
  replace ((gr_t0 t + gr_r t * (sin (finger_angle t phi) - sin (gr_theta0 t)) - gr_t0 t) / gr_r t + sin (gr_theta0 t)) with (sin (finger_angle t phi)) in E by (field; auto).
  unfold sq in E. cbn - [IZR Rlt_bool TOL] in E. rewrite TOL_R in E.
  pose proof (sin2_cos2 (finger_angle t phi)) as SC. unfold Rsqr in SC.
  rewrite Rlt_bool_true in E by lra. rewrite sqrt_cos in E by lra. rewrite sqrt_square in E by lra.
  assert (D : gr_gear t / (2 * gr_screw t) / screw_length t p * 2 * gr_a t * gr_b t * sin phi = gr_a t * gr_b t * sin phi / (pitch t * screw_length t p)).
  { unfold pitch. field. repeat split; lra. }
  unfold ntwo in E. cbn - [IZR] in E. rewrite D in E. clear D.
  set (x := gr_a t * gr_b t * sin phi / (pitch t * screw_length t p)) in *.
  assert (X0 : 0 < x).
  { unfold x, pitch. apply Rdiv_lt_0_compat; [apply Rmult_lt_0_compat; nra|]. apply Rmult_lt_0_compat; [apply Rdiv_lt_0_compat; lra|lra]. }
  rewrite Rabs_pos_eq in E by lra.
  assert (Y : 1 / cos (finger_angle t phi) / gr_r t = / (gr_r t * cos (finger_angle t phi))) by (field; split; lra).
  rewrite Y in E. rewrite <- E. apply (f_equal (fun q => fst (fst (fst q)))) in E. cbn [fst] in E. rewrite E. reflexivity.
Qed.

(** The other way: a gap size in the range of the linkage. *)
Definition gap_in_range (t : gripper R) (gap phi : R) : Prop :=
  0 <= phi <= PI /\ gap = gap_of t phi /\ - (PI / 2) <= finger_angle t phi <= PI / 2 /\
  0 <= gr_a t * gr_a t + gr_b t * gr_b t - gr_h t * gr_h t - 2 * gr_a t * gr_b t * cos phi.

Lemma inverse_linkage t gap phi : mechanism t -> gap_in_range t gap phi ->
  let '(MR, _, _, _) := inverseGapStates t (gap / 2) in
  linkage t (MR * gr_red t * (2 * PI)) phi /\ upright t (MR * gr_red t * (2 * PI)) phi.
Proof.
  intros [Ha [Hb [Hr [Hred [Hs Hg]]]]] [L [-> [U D]]].
  unfold inverseGapStates. cbn - [IZR inverseGapStates1].
  replace ((gap_of t phi / 2 - gr_t0 t) / gr_r t + sin (gr_theta0 t)) with (sin (finger_angle t phi)) by (unfold gap_of; field; auto).
  pose proof (SIN_bound (finger_angle t phi)) as [B1 B2].
  rewrite Rlt_bool_false by lra. rewrite Rlt_bool_false by lra. rewrite asin_sin by lra.
  unfold inverseGapStates1. cbn - [IZR Rlt_bool].
  replace (finger_angle t phi - gr_theta0 t + gr_phi0 t) with phi by (unfold finger_angle; ring).
  set (arg := - (2) * gr_a t * gr_b t * cos phi - gr_h t * gr_h t + gr_a t * gr_a t + gr_b t * gr_b t).
  assert (A : arg = gr_a t * gr_a t + gr_b t * gr_b t - gr_h t * gr_h t - 2 * gr_a t * gr_b t * cos phi) by (unfold arg; ring).
  pose proof PI_RGT_0 as HP.
  assert (K : forall x, 0 <= x -> x * x = arg ->
     linkage t (gr_gear t / gr_screw t * (x - gr_L0 t) * gr_red t * (2 * PI)) phi /\ upright t (gr_gear t / gr_screw t * (x - gr_L0 t) * gr_red t * (2 * PI)) phi).
  { intros x X0 X1. assert (SL : screw_length t (gr_gear t / gr_screw t * (x - gr_L0 t) * gr_red t * (2 * PI)) = x).
    { unfold screw_length, revolutions, pitch. field. repeat split; lra. }
    unfold linkage, upright. rewrite SL, X1, A. repeat split; lra. }
  change (@nzero R num_R) with 0. destruct (Rlt_bool_spec 0 arg) as [P|P].
  - cbv beta iota zeta. apply K; [apply sqrt_pos|apply sqrt_sqrt; lra].
  - cbv beta iota zeta. apply K; lra.
Qed.

(** ** The calls *)
Lemma passive_loop_spec ps pos vel eff : forall i pre post (m : mem R), i = List.length pre -> NoDup ps ->
  exists m1, passive_loop (List.length ps) i pos vel eff (pre ++ ps ++ post) m = Ok m1 /\ only_joints ps m m1 /\
  forall q, In q ps -> position (m_js m1 q) = pos /\ velocity (m_js m1 q) = vel /\ measured_effort (m_js m1 q) = eff /\ reference_position (m_js m1 q) = eff /\
    calibrated (m_js m1 q) = calibrated (m_js m q).
Proof.
  induction ps as [|q ps IH]; intros i pre post m Hi Hnd; cbn [passive_loop List.length].
  - exists m. split; [reflexivity|]. split; [split; auto|]. intros q [].
  - assert (V : vget (pre ++ (q :: ps) ++ post) i = Ok q).
    { unfold vget. rewrite nth_error_app2 by lia. subst i. rewrite Nat.sub_diag. reflexivity. }
    rewrite V. cbn [bind]. inversion Hnd as [|x l Hx Hl]; subst x l.
    set (m' := js_upd q _ _).
    destruct (IH (S i) (pre ++ [q]) post m') as [m1 [E [[O1 O2] F]]]; [rewrite app_length; simpl; lia|exact Hl|].
    rewrite <- app_assoc in E. cbn [app] in E. exists m1. split; [exact E|]. split; [split|].
    + intros p. rewrite O1. reflexivity.
    + intros p Hp. simpl in Hp. rewrite O2 by tauto. unfold m'. cbn [js_upd m_js]. unfold upd. destruct (Nat.eqb_spec p q); [subst; tauto|reflexivity].
    + intros p [->|Hp]; [|destruct (F p Hp) as (F1 & F2 & F3 & F4 & F5); repeat (split; [assumption|]); rewrite F5; unfold m'; cbn [js_upd m_js]; unfold upd; destruct (Nat.eqb_spec p q); [subst; tauto|reflexivity]]. rewrite O2 by exact Hx. unfold m'. cbn [js_upd m_js]. unfold upd. rewrite !Nat.eqb_refl. repeat split.
Qed.

Lemma blank_other k q (m : mem R) : q <> k -> m_js (blank_joint k m) q = m_js m q.
Proof. intros H. unfold blank_joint. rewrite !js_js_other by auto. reflexivity. Qed.
Lemma blank_act k (m : mem R) p : m_act (blank_joint k m) p = m_act m p.
Proof. reflexivity. Qed.

Lemma app_nodup_disj {A} (l r : list A) x : NoDup (l ++ r) -> In x l -> ~ In x r.
Proof.
  induction l as [|y l IH]; intros H Hx Hr; [destruct Hx|]. inversion H; subst. destruct Hx as [->|Hx].
  - apply H2. apply in_or_app. auto.
  - eapply IH; eauto.
Qed.
Lemma app_nodup_l {A} (l r : list A) : NoDup (l ++ r) -> NoDup l.
Proof. induction l; intros H; [constructor|]. inversion H; subst. constructor; [|auto]. intros K. apply H2, in_or_app. auto. Qed.

Lemma gripper_forward dbg t a j0 ps rest js m : gripper_vector t j0 ps rest js -> exists m1,
  gripper_propagatePosition dbg t [a] js m = Ok m1 /\ only_joints js m m1 /\
  let A := m_act m a in
  let g := computeGapStates t (revolutions t (a_position A)) (revolutions t (a_velocity A)) (a_last_measured_effort A / gr_red t) in
  position (m_js m1 j0) = g_size g * 2 /\ velocity (m_js m1 j0) = g_vel g * 2 /\ measured_effort (m_js m1 j0) = g_eff g / 2 /\
  same_config_j (m_js m j0) (m_js m1 j0) /\
  forall q, In q ps -> position (m_js m1 q) = g_theta g - gr_theta0 t /\ velocity (m_js m1 q) = g_dtheta_dMR g * revolutions t (a_velocity A) /\
    measured_effort (m_js m1 q) = a_last_measured_effort A / gr_red t / g_dtheta_dMR g / (1 / (2 * PI)).
Proof.
  intros [-> [Lp [Lr Hnd]]]. unfold gripper_propagatePosition.
  assert (SZ : gripper_size_fwd t (j0 :: ps ++ rest) = true).
  { unfold gripper_size_fwd. apply Nat.eqb_eq. simpl. rewrite app_length, Lp, Lr. destruct (gr_has_passive t); lia. }
  rewrite SZ. assert (CA : cassert dbg true = Ok tt) by (destruct dbg; reflexivity).
  change (List.length [a] =? 1)%nat with true. rewrite !CA. cbn [bind vget nth_error].
  set (A := m_act m a).
  change (nmul (ndiv (a_position A) (gr_red t)) RAD2MR) with (revolutions t (a_position A)).
  change (nmul (ndiv (a_velocity A) (gr_red t)) RAD2MR) with (revolutions t (a_velocity A)).
  change (ndiv (a_last_measured_effort A) (gr_red t)) with (a_last_measured_effort A / gr_red t).
  set (g := computeGapStates t _ _ _).
  change (nsub (g_theta g) (gr_theta0 t)) with (g_theta g - gr_theta0 t).
  change (nmul (g_dtheta_dMR g) (revolutions t (a_velocity A))) with (g_dtheta_dMR g * revolutions t (a_velocity A)).
  set (m0 := js_upd j0 (set_measured_effort _) _).
  inversion Hnd as [|x l Hx Hl]; subst x l. rewrite <- Lp.
  destruct (passive_loop_spec ps (g_theta g - gr_theta0 t) (g_dtheta_dMR g * revolutions t (a_velocity A))
    (ndiv (ndiv (a_last_measured_effort A / gr_red t) (g_dtheta_dMR g)) RAD2MR) 1 [j0] rest m0 eq_refl (app_nodup_l _ _ Hl)) as [m1 [E [[O1 O2] F]]].
  cbn [app] in E. rewrite E. cbn [bind].
  assert (N1 : forall i, vget (j0 :: ps ++ rest) (List.length ps + S i) = vget rest i).
  { intros i. unfold vget. rewrite Nat.add_succ_r. simpl. rewrite nth_error_app2 by lia. f_equal. 
    replace (List.length ps + i - List.length ps)%nat with i by lia. reflexivity. }
  rewrite N1. assert (J0 : forall q, In q rest -> q <> j0) by (intros q Hq ->; apply Hx, in_or_app; auto).
  assert (J1 : forall q q', In q rest -> In q' ps -> q' <> q) by (intros q q' Hq Hq' ->; exact (app_nodup_disj _ _ _ Hl Hq' Hq)).
  assert (FIN : forall m2, (forall p, m_act m2 p = m_act m1 p) -> (forall q, ~ In q rest -> m_js m2 q = m_js m1 q) ->
    only_joints (j0 :: ps ++ rest) m m2 /\
    (position (m_js m2 j0) = g_size g * 2 /\ velocity (m_js m2 j0) = g_vel g * 2 /\ measured_effort (m_js m2 j0) = g_eff g / 2 /\
     same_config_j (m_js m j0) (m_js m2 j0) /\
     forall q, In q ps -> position (m_js m2 q) = g_theta g - gr_theta0 t /\ velocity (m_js m2 q) = g_dtheta_dMR g * revolutions t (a_velocity A) /\
       measured_effort (m_js m2 q) = a_last_measured_effort A / gr_red t / g_dtheta_dMR g / (1 / (2 * PI)))).
  { intros m2 K1 K2. split; [split|].
    - intros p. rewrite K1, O1. reflexivity.
    - intros q Hq. simpl in Hq. rewrite in_app_iff in Hq. rewrite K2, O2 by tauto. unfold m0. cbn [js_upd m_js]. unfold upd.
      destruct (Nat.eqb_spec q j0); [subst; tauto|reflexivity].
    - assert (B : ~ In j0 rest) by (intros B; exact (J0 _ B eq_refl)). rewrite (K2 j0 B).
      rewrite O2 by (intros B'; apply Hx, in_or_app; auto). unfold m0. cbn [js_upd m_js]. unfold upd. rewrite !Nat.eqb_refl.
      repeat split; rewrite K2; try (apply F; auto); intros B'; exact (J1 _ _ B' H eq_refl). }
  destruct (gr_has_passive t).
  - destruct rest as [|k1 [|k2 [|]]]; try discriminate. cbn [vget nth_error bind]. rewrite (N1 1%nat). cbn [vget nth_error bind].
    eexists. split; [reflexivity|]. apply FIN; [reflexivity|].
    intros q Hq. simpl in Hq. rewrite !blank_other by (intros ->; tauto). reflexivity.
  - destruct rest as [|k1 [|]]; try discriminate. cbn [vget nth_error bind]. eexists. split; [reflexivity|]. apply FIN; [reflexivity|].
    intros q Hq. simpl in Hq. rewrite !blank_other by (intros ->; tauto). reflexivity.
Qed.

Lemma gripper_backward dbg e t a j0 ps rest js m : gripper_vector t j0 ps rest js -> gr_has_passive t = true ->
  js_joint (m_js m j0) <> None -> 
  exists t' m1, gripper_propagatePositionBackwards dbg e t js [a] m = Ok (t', m1) /\ only_actuators [a] m m1 /\
  let '(MR, dMR_dtheta, dtheta_dt, dMR_dt) := inverseGapStates t (position (m_js m j0) / 2) in
  a_position (m_act m1 a) = MR * gr_red t * (2 * PI) /\
  a_velocity (m_act m1 a) = velocity (m_js m j0) / 2 * dtheta_dt * dMR_dtheta * gr_red t * (2 * PI) /\
  a_last_measured_effort (m_act m1 a) = 2 * commanded_effort (m_js m j0) / dMR_dt / (2 * PI) * gr_red t.
Proof.
  intros [-> [Lp [Lr Hnd]]] HP Hj. unfold gripper_propagatePositionBackwards.
  assert (SZ : gripper_size_posback t (j0 :: ps ++ rest) = true).
  { unfold gripper_size_posback. rewrite HP in *. apply Nat.eqb_eq. simpl. rewrite app_length, Lp, Lr. lia. }
  rewrite SZ. assert (CA : cassert dbg true = Ok tt) by (destruct dbg; reflexivity).
  change (List.length [a] =? 1)%nat with true. rewrite !CA. cbn [bind vget nth_error].
  change (ndiv (position (m_js m j0)) ntwo) with (position (m_js m j0) / 2).
  destruct (inverseGapStates t (position (m_js m j0) / 2)) as [[[MR d1] d2] d3].
  destruct (sim_clock e (gr_ts_init t) (gr_start t)) as [[ini start] stamp].
  match goal with |- context [simcal_mem dbg ?c j0 a ?mm] => destruct (simcal_total dbg c j0 a mm) as [c' [a' [E K]]]; [exact Hj|] end.
  rewrite E. cbn [bind]. eexists. eexists. split; [reflexivity|].
  apply sbc_fields in K. destruct K as [K1 [K2 [K3 _]]].
  cbn [act_upd m_act m_js] in *. unfold upd in *. rewrite !Nat.eqb_refl in *.
  split; [split; [reflexivity|]|].
  - intros p Hp. simpl in Hp. cbn [act_upd m_act]. unfold upd. destruct (Nat.eqb_spec p a); [subst; tauto|reflexivity].
  - cbn [act_upd m_act]. unfold upd. rewrite ?Nat.eqb_refl. rewrite K1, K2, K3. unfold RAD2MR, ntwo. cbn - [IZR].
    pose proof PI_RGT_0. unfold Rdiv. rewrite !Rmult_1_l, !Rinv_inv. repeat split; ring.
Qed.

(** ** C49 *)
(** The gap joint reports the gap of the linkage. *)
Theorem C49_reports_linkage : forall dbg t a j0 ps rest js m phi, gripper_vector t j0 ps rest js ->
  0 < gr_a t -> 0 < gr_b t -> linkage t (a_position (m_act m a)) phi ->
  exists m1, gripper_propagatePosition dbg t [a] js m = Ok m1 /\ only_joints js m m1 /\
    position (m_js m1 j0) = gap_of t phi /\ (forall q, In q ps -> position (m_js m1 q) = finger_angle t phi - gr_theta0 t).
Proof.
  intros dbg t a j0 ps rest js m phi V Ha Hb L.
  destruct (gripper_forward dbg t a j0 ps rest js m V) as [m1 [E [O [P1 [P2 [P3 [C PP]]]]]]].
  exists m1. split; [exact E|]. split; [exact O|].
  destruct (gap_position t (a_position (m_act m a)) phi (revolutions t (a_velocity (m_act m a))) (a_last_measured_effort (m_act m a) / gr_red t) Ha Hb L) as [G1 G2].
  rewrite P1, G2. split; [reflexivity|]. intros q Hq. destruct (PP q Hq) as [Q _]. rewrite Q, G1. reflexivity.
Qed.

Lemma linkage_unique t p phi phi' : 0 < gr_a t -> 0 < gr_b t -> linkage t p phi -> linkage t p phi' -> phi = phi'.
Proof.
  intros Ha Hb [L1 L2] [K1 K2]. assert (Hab : 0 < gr_a t * gr_b t) by nra.
  assert (E : cos phi = cos phi') by nra. rewrite <- (acos_cos phi), <- (acos_cos phi') by assumption. congruence.
Qed.

(** Actuator -> gap -> actuator: the position survives wherever the linkage is upright; away from the singular
    configurations so does the velocity. *)
Theorem C49_actuator_roundtrip : forall dbg e t a j0 ps rest js m phi,
  gripper_vector t j0 ps rest js -> gr_has_passive t = true -> mechanism t -> js_joint (m_js m j0) <> None ->
  let p := a_position (m_act m a) in
  linkage t p phi -> upright t p phi ->
  exists m1 t' m2,
    gripper_propagatePosition dbg t [a] js m = Ok m1 /\
    gripper_propagatePositionBackwards dbg e t js [a] m1 = Ok (t', m2) /\
    only_joints js m m1 /\ only_actuators [a] m1 m2 /\
    a_position (m_act m2 a) = p /\ (regular t p phi -> a_velocity (m_act m2 a) = a_velocity (m_act m a)).
Proof.
  intros dbg e t a j0 ps rest js m phi V HP M Hj p L U.
  destruct (gripper_forward dbg t a j0 ps rest js m V) as [m1 [E [O [P1 [P2 [P3 [C PP]]]]]]]. fold p in P1, P2, P3, PP.
  assert (Hj1 : js_joint (m_js m1 j0) <> None) by (destruct C as [<- _]; auto).
  destruct (gripper_backward dbg e t a j0 ps rest js m1 V HP Hj1) as [t' [m2 [E2 [O2 B]]]].
  exists m1, t', m2. do 4 (split; [assumption|]).
  pose proof M as [Ha [Hb [Hr [Hred [Hs Hg]]]]].
  destruct (gap_position t p phi (revolutions t (a_velocity (m_act m a))) (a_last_measured_effort (m_act m a) / gr_red t) Ha Hb L) as [_ G2].
  rewrite P1, G2 in B. pose proof (inverse_position t p phi M L U) as IP. pose proof PI_RGT_0 as HPI.
  destruct (inverseGapStates t (gap_of t phi / 2)) as [[[MR d1] d2] d3] eqn:EI. destruct B as [B1 [B2 B3]].
  split.
  - rewrite B1, IP. unfold revolutions. field. split; lra.
  - intros R. rewrite (inverse_jacobian t p phi M L R) in EI. injection EI as _ <- <- <-.
    destruct (gap_jacobian t p phi (revolutions t (a_velocity (m_act m a))) (a_last_measured_effort (m_act m a) / gr_red t) M L R) as [S1 [C1 [J1 [J2 [J3 J4]]]]].
    rewrite B2, P2, J3, J2, J1. destruct R as [R1 [R2 _]]. assert (pitch t <> 0) by (unfold pitch; apply Rgt_not_eq, Rdiv_lt_0_compat; lra).
    unfold revolutions. field. repeat split; lra.
Qed.

(** ... and the effort, if the effort measured at the gap is the one commanded there. *)
Theorem C49_effort_roundtrip : forall dbg e t a j0 ps rest js m phi,
  gripper_vector t j0 ps rest js -> gr_has_passive t = true -> mechanism t -> js_joint (m_js m j0) <> None ->
  let p := a_position (m_act m a) in
  linkage t p phi -> regular t p phi ->
  exists m1, gripper_propagatePosition dbg t [a] js m = Ok m1 /\
    forall m1', m1' = js_upd j0 (fun j => set_commanded_effort (measured_effort j) j) m1 ->
    (exists t' m2, gripper_propagatePositionBackwards dbg e t js [a] m1' = Ok (t', m2) /\
       same_motion_a (m_act m2 a) (m_act m a)) /\
    (exists m3, gripper_propagateEffort dbg t js [a] m1' = Ok m3 /\ only_actuators [a] m1' m3 /\
       only_command (m_act m1' a) (m_act m3 a) /\ a_enable (m_act m3 a) = true /\
       a_effort (m_act m3 a) = a_last_measured_effort (m_act m a)).
Proof.
  intros dbg e t a j0 ps rest js m phi V HP M Hj p L R.
  destruct (gripper_forward dbg t a j0 ps rest js m V) as [m1 [E [O [P1 [P2 [P3 [C PP]]]]]]]. fold p in P1, P2, P3, PP.
  exists m1. split; [exact E|]. intros m1' ->. set (m1' := js_upd j0 _ m1).
  assert (Q : m_js m1' j0 = set_commanded_effort (measured_effort (m_js m1 j0)) (m_js m1 j0)) by (unfold m1'; cbn [js_upd m_js]; unfold upd; rewrite Nat.eqb_refl; reflexivity).
  assert (Hj1 : js_joint (m_js m1' j0) <> None) by (rewrite Q; destruct C as [C1 _]; simpl; rewrite <- C1; auto).
  pose proof M as [Ha [Hb [Hr [Hred [Hs Hg]]]]]. pose proof PI_RGT_0 as HPI.
  destruct (gap_position t p phi (revolutions t (a_velocity (m_act m a))) (a_last_measured_effort (m_act m a) / gr_red t) Ha Hb L) as [_ G2].
  destruct (gap_jacobian t p phi (revolutions t (a_velocity (m_act m a))) (a_last_measured_effort (m_act m a) / gr_red t) M L R) as [S1 [C1 [J1 [J2 [J3 J4]]]]].
  pose proof (inverse_jacobian t p phi M L R) as IJ.
  assert (HR : 0 < screw_length t p) by (destruct R as [_ [R2 _]]; exact R2).
  assert (HK : pitch t <> 0) by (unfold pitch; apply Rgt_not_eq, Rdiv_lt_0_compat; lra).
  split.
  - destruct (gripper_backward dbg e t a j0 ps rest js m1' V HP Hj1) as [t' [m2 [E2 [O2 B]]]].
    exists t', m2. split; [exact E2|]. rewrite Q in B. cbn [position velocity commanded_effort set_commanded_effort] in B.
    rewrite P1, G2, IJ in B. destruct B as [B1 [B2 B3]]. unfold same_motion_a. rewrite B1, B2, B3, P2, P3, J3, J4, J2, J1.
    unfold revolutions. fold p. repeat split; field; repeat split; lra.
  - destruct V as [-> [Lp [Lr Hnd]]]. unfold gripper_propagateEffort.
    assert (SZ : gripper_size_fwd t (j0 :: ps ++ rest) = true).
    { unfold gripper_size_fwd. apply Nat.eqb_eq. simpl. rewrite app_length, Lp, Lr. destruct (gr_has_passive t); lia. }
    rewrite SZ. assert (CA : cassert dbg true = Ok tt) by (destruct dbg; reflexivity).
    change (List.length [a] =? 1)%nat with true. rewrite !CA. cbn [bind vget nth_error].
    change (ndiv (position (m_js m1' j0)) ntwo) with (position (m_js m1' j0) / 2). rewrite Q. cbn [position commanded_effort set_commanded_effort].
    rewrite P1, G2, IJ. eexists. split; [reflexivity|]. cbn [act_upd m_act m_js]. unfold upd. rewrite !Nat.eqb_refl.
    split; [split; [reflexivity|]; intros q Hq; simpl in Hq; cbn [act_upd m_act]; unfold upd; destruct (Nat.eqb_spec q a); [subst; tauto|reflexivity]|].
    split; [eexists; eexists; reflexivity|]. split; [reflexivity|].
    cbn [a_effort set_a_effort]. rewrite P3, J4, J2, J1. unfold RAD2MR, ntwo. cbn - [IZR]. field. repeat split; lra.
Qed.

(** Gap -> actuator -> gap. *)
Theorem C49_gap_roundtrip : forall dbg e t a j0 ps rest js m phi,
  gripper_vector t j0 ps rest js -> gr_has_passive t = true -> mechanism t -> js_joint (m_js m j0) <> None ->
  gap_in_range t (position (m_js m j0)) phi ->
  exists t' m1 m2,
    gripper_propagatePositionBackwards dbg e t js [a] m = Ok (t', m1) /\
    gripper_propagatePosition dbg t [a] js m1 = Ok m2 /\
    position (m_js m2 j0) = position (m_js m j0) /\
    (regular t (a_position (m_act m1 a)) phi -> velocity (m_js m2 j0) = velocity (m_js m j0)).
Proof.
  intros dbg e t a j0 ps rest js m phi V HP M Hj G.
  destruct (gripper_backward dbg e t a j0 ps rest js m V HP Hj) as [t' [m1 [E2 [O2 B]]]].
  destruct (gripper_forward dbg t a j0 ps rest js m1 V) as [m2 [E [O [P1 [P2 [P3 [C PP]]]]]]].
  exists t', m1, m2. do 2 (split; [assumption|]).
  pose proof (inverse_linkage t _ phi M G) as IL. pose proof M as [Ha [Hb [Hr [Hred [Hs Hg]]]]].
  destruct (inverseGapStates t (position (m_js m j0) / 2)) as [[[MR d1] d2] d3] eqn:EI. destruct B as [B1 [B2 B3]]. destruct IL as [L U].
  rewrite <- B1 in L, U. set (p := a_position (m_act m1 a)) in *.
  destruct (gap_position t p phi (revolutions t (a_velocity (m_act m1 a))) (a_last_measured_effort (m_act m1 a) / gr_red t) Ha Hb L) as [_ G2].
  destruct G as [G0 [G1 _]]. split.
  - rewrite P1, G2. auto.
  - intros R. rewrite G1, (inverse_jacobian t p phi M L R) in EI. injection EI as <- <- <- <-.
    destruct (gap_jacobian t p phi (revolutions t (a_velocity (m_act m1 a))) (a_last_measured_effort (m_act m1 a) / gr_red t) M L R) as [S1 [C1 [J1 [J2 [J3 J4]]]]].
    rewrite P2, J3, J2, J1, B2. destruct R as [R1 [R2 _]]. assert (pitch t <> 0) by (unfold pitch; apply Rgt_not_eq, Rdiv_lt_0_compat; lra).
    pose proof PI_RGT_0. unfold revolutions. field. repeat split; lra.
Qed.

(** ** C50 *)
Definition clamp1 (u : R) : R := if Rlt_bool u (-(1)) then -(1) else if Rlt_bool 1 u then 1 else u.
Lemma clamp1_deriv u : -1 < u < 1 -> derivable_pt_lim clamp1 u 1.
Proof.
  intros H eps He. assert (D : 0 < Rmin (u + 1) (1 - u)) by (apply Rmin_pos; lra).
  exists (mkposreal _ D). intros h Hh B. cbn [pos] in B.
  pose proof (Rmin_l (u + 1) (1 - u)). pose proof (Rmin_r (u + 1) (1 - u)).
  apply Rabs_def2 in B. unfold clamp1.
  rewrite (Rlt_bool_false u) by lra. rewrite (Rlt_bool_false 1 u) by lra.
  rewrite (Rlt_bool_false (u + h)) by lra. rewrite (Rlt_bool_false 1 (u + h)) by lra.
  replace ((u + h - u) / h - 1) with 0 by (field; auto). rewrite Rabs_R0. exact He.
Qed.
Lemma acos_deriv x : -1 < x < 1 -> derivable_pt_lim acos x (- (1) / sqrt (1 - x * x)).
Proof.
  intros H. pose proof (derive_pt_acos x H) as E. apply derive_pt_eq_1 in E.
  replace (- (1) / sqrt (1 - x * x)) with (-1 / sqrt (1 - x²)) by (unfold Rsqr; f_equal; lra). exact E.
Qed.

(** the linkage angle as a function of the motor revolutions *)
Lemma linkage_deriv t p phi : 0 < gr_a t -> 0 < gr_b t -> gr_gear t <> 0 -> linkage t p phi -> 0 < sin phi ->
  derivable_pt_lim (fun MR => acos (gap_u t MR)) (revolutions t p) (screw_length t p * pitch t / (gr_a t * gr_b t * sin phi)).
Proof.
  intros Ha Hb Hg L Hs.
  set (raw := fun MR => (gr_a t * gr_a t + gr_b t * gr_b t - gr_h t * gr_h t
            - (gr_L0 t + MR * gr_screw t / gr_gear t) * (gr_L0 t + MR * gr_screw t / gr_gear t)) / (2 * gr_a t * gr_b t)).
  pose proof (cos_law t p phi Ha Hb L) as E.
  assert (CU : forall MR, gap_u t MR = clamp1 (raw MR)) by reflexivity.
  pose proof (sin2_cos2 phi) as SC. unfold Rsqr in SC.
  assert (CB : -1 < cos phi < 1) by (split; nra).
  assert (RW : raw (revolutions t p) = cos phi).
  { rewrite CU in E. unfold clamp1 in E. destruct (Rlt_bool_spec (raw (revolutions t p)) (-(1))); [lra|].
    destruct (Rlt_bool_spec 1 (raw (revolutions t p))); [lra|exact E]. }
  assert (D1 : derivable_pt_lim raw (revolutions t p) (- (screw_length t p * pitch t) / (gr_a t * gr_b t))).
  { apply is_derive_Reals. unfold raw. auto_derive; [auto|]. unfold screw_length, pitch. field. repeat split; lra. }
  assert (D2 : derivable_pt_lim clamp1 (raw (revolutions t p)) 1) by (apply clamp1_deriv; lra).
  assert (D3 : derivable_pt_lim acos (clamp1 (raw (revolutions t p))) (- (1) / sqrt (1 - cos phi * cos phi))).
  { rewrite <- CU, E. apply acos_deriv. exact CB. }
  pose proof (derivable_pt_lim_comp _ _ _ _ _ D1 D2) as D12.
  pose proof (derivable_pt_lim_comp _ _ _ _ _ D12 D3) as D.
  unfold Ranalysis1.comp in D. replace (screw_length t p * pitch t / (gr_a t * gr_b t * sin phi))
    with (- (1) / sqrt (1 - cos phi * cos phi) * (1 * (- (screw_length t p * pitch t) / (gr_a t * gr_b t)))); [exact D|].
  rewrite sqrt_sin by (destruct L; assumption). field. repeat split; lra.
Qed.

Lemma revolutions_deriv t (f : R -> R) x v : gr_red t <> 0 -> derivable_pt_lim f x v ->
  derivable_pt_lim (fun y => revolutions t (f y)) x (revolutions t v).
Proof.
  intros Hr H. pose proof PI_RGT_0.
  assert (K : derivable_pt_lim (revolutions t) (f x) (1 / gr_red t * (1 / (2 * PI)))).
  { apply is_derive_Reals. unfold revolutions. auto_derive; [auto|]. field. split; lra. }
  pose proof (derivable_pt_lim_comp _ _ _ _ _ H K) as D. unfold Ranalysis1.comp in D.
  replace (revolutions t v) with (1 / gr_red t * (1 / (2 * PI)) * v); [exact D|]. unfold revolutions. field. split; lra.
Qed.

(** While the actuator moves along any differentiable trajectory and reports its true velocity, the velocity reported for
    the gap joint is the derivative of the gap position reported, and likewise for every passive joint. *)
Theorem C50_velocity_is_derivative : forall dbg t a j0 ps rest js (before after : R -> mem R) now phi,
  gripper_vector t j0 ps rest js -> mechanism t ->
  (forall s, gripper_propagatePosition dbg t [a] js (before s) = Ok (after s)) ->
  derivable_pt_lim (fun s => a_position (m_act (before s) a)) now (a_velocity (m_act (before now) a)) ->
  linkage t (a_position (m_act (before now) a)) phi -> regular t (a_position (m_act (before now) a)) phi ->
  forall j, In j (j0 :: ps) -> derivable_pt_lim (fun s => position (m_js (after s) j)) now (velocity (m_js (after now) j)).
Proof.
  intros dbg t a j0 ps rest js before after now phi V M HC HD L Rg j Hj.
  assert (F : forall s,
    let A := m_act (before s) a in
    let g := computeGapStates t (revolutions t (a_position A)) (revolutions t (a_velocity A)) (a_last_measured_effort A / gr_red t) in
    position (m_js (after s) j0) = g_size g * 2 /\ velocity (m_js (after s) j0) = g_vel g * 2 /\
    forall q, In q ps -> position (m_js (after s) q) = g_theta g - gr_theta0 t /\ velocity (m_js (after s) q) = g_dtheta_dMR g * revolutions t (a_velocity A)).
  { intros s. destruct (gripper_forward dbg t a j0 ps rest js (before s) V) as [m1 [E [O [P1 [P2 [P3 [C PP]]]]]]].
    rewrite HC in E. injection E as ->. intros A g. split; [exact P1|]. split; [exact P2|]. intros q Hq. split; apply (PP q Hq). }
  pose proof M as [Ha [Hb [Hr [Hred [Hs Hg]]]]].
  destruct (gap_jacobian t _ phi (revolutions t (a_velocity (m_act (before now) a))) (a_last_measured_effort (m_act (before now) a) / gr_red t) M L Rg) as [S1 [C1 [J1 [J2 [J3 J4]]]]].
  destruct (gap_position t _ phi (revolutions t (a_velocity (m_act (before now) a))) (a_last_measured_effort (m_act (before now) a) / gr_red t) Ha Hb L) as [G1 G2].
  assert (DT : derivable_pt_lim (fun s => gr_theta0 t - gr_phi0 t + acos (gap_u t (revolutions t (a_position (m_act (before s) a))))) now
     (screw_length t (a_position (m_act (before now) a)) * pitch t / (gr_a t * gr_b t * sin phi) * revolutions t (a_velocity (m_act (before now) a)))).
  { pose proof (derivable_pt_lim_comp _ _ _ _ _ (revolutions_deriv t _ _ _ Hred HD) (linkage_deriv t _ phi Ha Hb ltac:(lra) L S1)) as D.
    unfold Ranalysis1.comp in D.
    match goal with |- derivable_pt_lim _ _ ?l => rewrite <- (Rplus_0_l l) end.
    exact (derivable_pt_lim_plus (fun _ => gr_theta0 t - gr_phi0 t) _ now 0 _ (derivable_pt_lim_const _ _) D). }
  assert (ext : forall (f g : R -> R) x l, (forall s, g s = f s) -> derivable_pt_lim f x l -> derivable_pt_lim g x l).
  { intros f g x l HE H. apply is_derive_Reals. apply is_derive_Reals in H. apply (is_derive_ext f); [intros; symmetry; apply HE|exact H]. }
  destruct Hj as [<-|Hj].
  - destruct (F now) as [_ [FV _]]. rewrite FV, J3, J2, J1.
    eapply ext; [intros s; destruct (F s) as [FP _]; rewrite FP; cbn [computeGapStates g_size]; reflexivity|].
    cbn - [IZR gap_u].
    pose proof (derivable_pt_lim_comp _ _ _ _ _ DT (derivable_pt_lim_sin _)) as D. unfold Ranalysis1.comp in D.
    assert (K : derivable_pt_lim (fun x => (gr_t0 t + gr_r t * (x - sin (gr_theta0 t))) * 2)
        (sin (gr_theta0 t - gr_phi0 t + acos (gap_u t (revolutions t (a_position (m_act (before now) a)))))) (2 * gr_r t)).
    { apply is_derive_Reals. auto_derive; [auto|]. ring. }
    pose proof (derivable_pt_lim_comp _ _ _ _ _ D K) as D'. unfold Ranalysis1.comp in D'.
    change (gr_theta0 t - gr_phi0 t + acos (gap_u t (revolutions t (a_position (m_act (before now) a)))))
      with (g_theta (computeGapStates t (revolutions t (a_position (m_act (before now) a))) (revolutions t (a_velocity (m_act (before now) a))) (a_last_measured_effort (m_act (before now) a) / gr_red t))) in D'.
    rewrite G1 in D'.
    match type of D' with derivable_pt_lim _ _ ?l => match goal with |- derivable_pt_lim _ _ ?l' => replace l' with l by ring end end.
    exact D'.
  - destruct (F now) as [_ [_ FV]]. destruct (FV j Hj) as [_ FV']. rewrite FV', J1.
    eapply ext; [intros s; destruct (F s) as [_ [_ FP]]; destruct (FP j Hj) as [FP' _]; rewrite FP'; cbn [computeGapStates g_theta]; reflexivity|].
    cbn - [IZR gap_u].
    match goal with |- derivable_pt_lim _ _ ?l => rewrite <- (Rminus_0_r l) end.
    exact (derivable_pt_lim_minus _ (fun _ => gr_theta0 t) now _ 0 DT (derivable_pt_lim_const _ _)).
Qed.

(** Below zero revolutions the reported velocity is no longer the derivative: the slope of position zero is used. *)
Theorem C50_below_zero_uses_slope_at_zero : forall dbg t a j0 ps rest js m m0 m1 m01,
  gripper_vector t j0 ps rest js -> gr_red t <> 0 ->
  revolutions t (a_position (m_act m a)) < 0 ->
  a_position (m_act m0 a) = 0 -> a_velocity (m_act m0 a) = a_velocity (m_act m a) ->
  gripper_propagatePosition dbg t [a] js m = Ok m1 -> gripper_propagatePosition dbg t [a] js m0 = Ok m01 ->
  forall j, In j (j0 :: ps) -> velocity (m_js m1 j) = velocity (m_js m01 j).
Proof.
  intros dbg t a j0 ps rest js m m0 m1 m01 V Hr HN H0 HV E E0 j Hj.
  destruct (gripper_forward dbg t a j0 ps rest js m V) as [m1' [E' [_ [_ [P2 [_ [_ PP]]]]]]]. rewrite E in E'. injection E' as <-.
  destruct (gripper_forward dbg t a j0 ps rest js m0 V) as [m1' [E' [_ [_ [P2' [_ [_ PP']]]]]]]. rewrite E0 in E'. injection E' as <-.
  assert (Z : revolutions t (a_position (m_act m0 a)) = 0) by (rewrite H0; unfold revolutions, Rdiv; ring).
  assert (SD : forall v e e', g_dtheta_dMR (computeGapStates t (revolutions t (a_position (m_act m a))) v e) = g_dtheta_dMR (computeGapStates t (revolutions t (a_position (m_act m0 a))) v e')
     /\ g_vel (computeGapStates t (revolutions t (a_position (m_act m a))) v e) = g_vel (computeGapStates t (revolutions t (a_position (m_act m0 a))) v e')).
  { intros v e e'. cbn [computeGapStates g_dtheta_dMR g_vel]. rewrite Z.
    change (nleb nzero (revolutions t (a_position (m_act m a)))) with (Rle_bool 0 (revolutions t (a_position (m_act m a)))).
    rewrite Rle_bool_false by exact HN. change (@nzero R num_R) with 0. cbn [nleb num_R]. rewrite Rle_bool_true by lra. split; reflexivity. }
  destruct Hj as [<-|Hj].
  - rewrite P2, P2', HV. f_equal. apply SD.
  - destruct (PP j Hj) as [_ [Q _]]. destruct (PP' j Hj) as [_ [Q' _]]. rewrite Q, Q', HV. f_equal.
    apply (SD (revolutions t (a_velocity (m_act m a)))).
Qed.

(** Effort is the transpose up to the square of the mechanical reduction: velocity and effort are both divided by it on
    the way to the joint (both multiplied on the way back).  Power is conserved exactly if the reduction is 1 or -1. *)
Theorem C50_power_ratio : forall dbg t a j0 ps rest js m phi, gripper_vector t j0 ps rest js -> mechanism t ->
  linkage t (a_position (m_act m a)) phi -> regular t (a_position (m_act m a)) phi ->
  exists m1, gripper_propagatePosition dbg t [a] js m = Ok m1 /\
    (forall j, In j (j0 :: ps) ->
       velocity (m_js m1 j) * measured_effort (m_js m1 j) * (gr_red t * gr_red t)
       = a_velocity (m_act m a) * a_last_measured_effort (m_act m a)) /\
    (forall c, let m1' := js_upd j0 (set_commanded_effort c) m1 in
       exists m2, gripper_propagateEffort dbg t js [a] m1' = Ok m2 /\
       a_velocity (m_act m a) * a_effort (m_act m2 a) = velocity (m_js m1 j0) * c * (gr_red t * gr_red t)).
Proof.
  intros dbg t a j0 ps rest js m phi V M L R.
  destruct (gripper_forward dbg t a j0 ps rest js m V) as [m1 [E [O [P1 [P2 [P3 [C PP]]]]]]].
  exists m1. split; [exact E|].
  set (p := a_position (m_act m a)) in *.
  pose proof M as [Ha [Hb [Hr [Hred [Hs Hg]]]]]. pose proof PI_RGT_0 as HPI.
  destruct (gap_position t p phi (revolutions t (a_velocity (m_act m a))) (a_last_measured_effort (m_act m a) / gr_red t) Ha Hb L) as [_ G2].
  destruct (gap_jacobian t p phi (revolutions t (a_velocity (m_act m a))) (a_last_measured_effort (m_act m a) / gr_red t) M L R) as [S1 [C1 [J1 [J2 [J3 J4]]]]].
  pose proof (inverse_jacobian t p phi M L R) as IJ.
  assert (HR : 0 < screw_length t p) by (destruct R as [_ [R2 _]]; exact R2).
  assert (HK : pitch t <> 0) by (unfold pitch; apply Rgt_not_eq, Rdiv_lt_0_compat; lra).
  split.
  - intros j [<-|Hj].
    + rewrite P2, P3, J3, J4, J2, J1. unfold revolutions. field. repeat split; lra.
    + destruct (PP j Hj) as [_ [Q1 Q2]]. rewrite Q1, Q2, J1. unfold revolutions. field. repeat split; lra.
  - intros c m1'. destruct V as [-> [Lp [Lr Hnd]]]. unfold gripper_propagateEffort.
    assert (SZ : gripper_size_fwd t (j0 :: ps ++ rest) = true).
    { unfold gripper_size_fwd. apply Nat.eqb_eq. simpl. rewrite app_length, Lp, Lr. destruct (gr_has_passive t); lia. }
    rewrite SZ. assert (CA : cassert dbg true = Ok tt) by (destruct dbg; reflexivity).
    assert (Q : m_js m1' j0 = set_commanded_effort c (m_js m1 j0)) by (unfold m1'; cbn [js_upd m_js]; unfold upd; rewrite Nat.eqb_refl; reflexivity).
    change (List.length [a] =? 1)%nat with true. rewrite !CA. cbn [bind vget nth_error].
    change (ndiv (position (m_js m1' j0)) ntwo) with (position (m_js m1' j0) / 2). rewrite Q. cbn [position commanded_effort set_commanded_effort].
    rewrite P1, G2, IJ. eexists. split; [reflexivity|]. cbn [act_upd m_act m_js]. unfold upd. rewrite !Nat.eqb_refl.
    cbn [a_effort set_a_effort]. rewrite P2, J3, J2, J1. unfold RAD2MR, ntwo, revolutions. cbn - [IZR]. field. repeat split; lra.
Qed.

(** The joints the linkage says nothing about: the screw and slider joints are shown at rest and calibrated; the finger joints
    get the measured effort as their reference position (as the code has it) and keep their calibration flag. *)
Theorem C49_other_joints : forall dbg t a j0 ps rest js m m1, gripper_vector t j0 ps rest js -> gripper_propagatePosition dbg t [a] js m = Ok m1 ->
  (forall q, In q rest -> position (m_js m1 q) = 0 /\ velocity (m_js m1 q) = 0 /\ measured_effort (m_js m1 q) = 0 /\ reference_position (m_js m1 q) = 0 /\
     calibrated (m_js m1 q) = true /\ js_joint (m_js m1 q) = js_joint (m_js m q) /\ commanded_effort (m_js m1 q) = commanded_effort (m_js m q)) /\
  (forall q, In q ps -> reference_position (m_js m1 q) = measured_effort (m_js m1 q) /\ calibrated (m_js m1 q) = calibrated (m_js m q)).
Proof.
  intros dbg t a j0 ps rest js m m1 [-> [Lp [Lr Hnd]]] E. unfold gripper_propagatePosition in E.
  assert (SZ : gripper_size_fwd t (j0 :: ps ++ rest) = true).
  { unfold gripper_size_fwd. apply Nat.eqb_eq. simpl. rewrite app_length, Lp, Lr. destruct (gr_has_passive t); lia. }
  rewrite SZ in E. assert (CA : cassert dbg true = Ok tt) by (destruct dbg; reflexivity).
  change (List.length [a] =? 1)%nat with true in E. rewrite !CA in E. cbn [bind vget nth_error] in E.
  set (g := computeGapStates t _ _ _) in E. set (m0 := js_upd j0 (set_measured_effort _) _) in E.
  inversion Hnd as [|x l Hx Hl]; subst x l. rewrite <- Lp in E.
  match type of E with context [passive_loop _ 1 ?pos ?vel ?eff _ m0] =>
    destruct (passive_loop_spec ps pos vel eff 1 [j0] rest m0 eq_refl (app_nodup_l _ _ Hl)) as [mp [EP [[O1 O2] F]]] end.
  cbn [app] in EP. rewrite EP in E. cbn [bind] in E.
  assert (N1 : forall i, vget (j0 :: ps ++ rest) (List.length ps + S i) = vget rest i).
  { intros i. unfold vget. rewrite Nat.add_succ_r. simpl. rewrite nth_error_app2 by lia. f_equal.
    replace (List.length ps + i - List.length ps)%nat with i by lia. reflexivity. }
  rewrite N1 in E. assert (J0 : forall q, In q rest -> q <> j0) by (intros q Hq ->; apply Hx, in_or_app; auto).
  assert (J1 : forall q q', In q rest -> In q' ps -> q' <> q) by (intros q q' Hq Hq' ->; exact (app_nodup_disj _ _ _ Hl Hq' Hq)).
  assert (MR : forall q, In q rest -> m_js mp q = m_js m q).
  { intros q Hq. rewrite O2 by (intros I; exact (J1 _ _ Hq I eq_refl)). unfold m0. cbn [js_upd m_js]. unfold upd. destruct (Nat.eqb_spec q j0) as [->|]; [destruct (J0 _ Hq eq_refl)|reflexivity]. }
  assert (BL : forall k (mm : mem R), let j := m_js (blank_joint k mm) k in position j = 0 /\ velocity j = 0 /\ measured_effort j = 0 /\ reference_position j = 0 /\
     calibrated j = true /\ js_joint j = js_joint (m_js mm k) /\ commanded_effort j = commanded_effort (m_js mm k)).
  { intros k mm. unfold blank_joint. cbn [js_upd m_js]. unfold upd. rewrite !Nat.eqb_refl. repeat split. }
  assert (M0 : forall q, In q ps -> calibrated (m_js m0 q) = calibrated (m_js m q)).
  { intros q Hq. unfold m0. cbn [js_upd m_js]. unfold upd. destruct (Nat.eqb_spec q j0) as [->|]; reflexivity. }
  destruct (gr_has_passive t).
  - destruct rest as [|k1 [|k2 [|]]]; try discriminate. cbn [vget nth_error bind] in E. rewrite (N1 1%nat) in E. cbn [vget nth_error bind] in E. injection E as <-.
    assert (NE : k1 <> k2). { intros ->. clear - Hl. assert (X : NoDup ([k2; k2] ++ [] : list nat)); [|inversion X as [|x l X1 _]; apply X1; left; reflexivity].
      cbn. clear - Hl. induction ps as [|p ps IH]; [exact Hl|]. inversion Hl; auto. }
    split.
    + intros q [<-|[<-|[]]].
      * rewrite blank_other by exact NE. destruct (BL k1 mp) as (B1 & B2 & B3 & B4 & B5 & B6 & B7). rewrite B6, B7, (MR k1) by (left; auto). auto 8.
      * destruct (BL k2 (blank_joint k1 mp)) as (B1 & B2 & B3 & B4 & B5 & B6 & B7). rewrite (blank_other k1 k2 mp) in B6, B7 by (intros X; apply NE; symmetry; exact X). rewrite (MR k2) in B6, B7 by (simpl; auto). auto 8.
    + intros q Hq. rewrite !blank_other by (apply J1; simpl; auto). destruct (F q Hq) as (_ & _ & F3 & F4 & F5). rewrite F3, F4, F5. split; [reflexivity|]. apply M0. exact Hq.
  - destruct rest as [|k1 [|]]; try discriminate. cbn [vget nth_error bind] in E. injection E as <-. split.
    + intros q [<-|[]]. destruct (BL k1 mp) as (B1 & B2 & B3 & B4 & B5 & B6 & B7). rewrite B6, B7, (MR k1) by (left; auto). auto 8.
    + intros q Hq. rewrite !blank_other by (apply J1; simpl; auto). destruct (F q Hq) as (_ & _ & F3 & F4 & F5). rewrite F3, F4, F5. split; [reflexivity|]. apply M0. exact Hq.
Qed.

(** In simulation the command of the motor becomes an effort on the screw joint [k]: times the simulated reduction it is the
    effort on one finger tip, whose power (half the gap's speed times it) is the motor's up to the square of the mechanical
    reduction; nothing else changes. *)
Theorem C50_simulated_effort : forall dbg t a j0 ps k k' js m phi, gripper_vector t j0 ps [k; k'] js -> gr_has_passive t = true -> mechanism t -> 0 < gr_sim_red t ->
  linkage t (a_position (m_act m a)) phi -> regular t (a_position (m_act m a)) phi ->
  exists m1 m2, gripper_propagatePosition dbg t [a] js m = Ok m1 /\ gripper_propagateEffortBackwards dbg t [a] js m1 = Ok m2 /\
    (forall p, m_act m2 p = m_act m1 p) /\ (forall q, q <> k -> m_js m2 q = m_js m1 q) /\
    (exists c, m_js m2 k = set_commanded_effort c (m_js m1 k) /\
       (c * gr_sim_red t) * (velocity (m_js m1 j0) / 2) * (gr_red t * gr_red t) = a_velocity (m_act m a) * a_effort (m_act m a)).
Proof.
  intros dbg t a j0 ps k k' js m phi V HPA M SR L RG.
  destruct (gripper_forward dbg t a j0 ps [k; k'] js m V) as [m1 [E [O [P1 [P2 [P3 [C PP]]]]]]].
  exists m1. set (p := a_position (m_act m a)) in *.
  pose proof M as [Ha [Hb [Hr [Hred [Hs Hg]]]]]. pose proof PI_RGT_0 as HPI.
  assert (HR : 0 < screw_length t p) by (destruct RG as [_ [R2 _]]; exact R2).
  assert (HK : pitch t <> 0) by (unfold pitch; apply Rgt_not_eq, Rdiv_lt_0_compat; lra).
  destruct (gap_jacobian t p phi (revolutions t (a_velocity (m_act m a))) (a_last_measured_effort (m_act m a) / gr_red t) M L RG) as [S1 [C1 [J1 [J2 [J3 _]]]]].
  destruct (gap_jacobian t p phi (revolutions t (a_velocity (m_act m a))) (a_effort (m_act m a) / gr_red t) M L RG) as [_ [_ [K1 [K2 [_ K4]]]]].
  destruct V as [-> [Lp [Lr Hnd]]]. destruct O as [OA _].
  unfold gripper_propagateEffortBackwards.
  assert (SZ : gripper_size_effback t (j0 :: ps ++ [k; k']) = true).
  { unfold gripper_size_effback. apply Nat.eqb_eq. simpl. rewrite app_length, Lp. simpl. lia. }
  rewrite SZ. assert (CA : cassert dbg true = Ok tt) by (destruct dbg; reflexivity).
  assert (SP : nltb nzero (gr_sim_red t) = true) by (apply Rlt_bool_true; exact SR).
  change (List.length [a] =? 1)%nat with true. rewrite SP, !CA. cbn [bind vget nth_error]. rewrite (OA a).
  assert (N1 : vget (j0 :: ps ++ [k; k']) (List.length (gr_passive t) + 1) = Ok k).
  { rewrite <- Lp. unfold vget. rewrite Nat.add_1_r. simpl. rewrite nth_error_app2 by lia. rewrite Nat.sub_diag. reflexivity. }
  rewrite N1. cbn [bind]. eexists. split; [exact E|]. split; [reflexivity|]. split; [reflexivity|]. split.
  - intros q NE. cbn [js_upd m_js]. unfold upd. destruct (Nat.eqb_spec q k); [congruence|reflexivity].
  - eexists. split; [cbn [js_upd m_js]; unfold upd; rewrite Nat.eqb_refl; reflexivity|].
    match goal with |- ndiv ?x _ * _ * _ * _ = _ => change x with (g_eff (computeGapStates t (revolutions t p) (revolutions t (a_velocity (m_act m a))) (a_effort (m_act m a) / gr_red t))) end.
    rewrite K4, K2, K1, P2, J3, J2, J1. unfold revolutions. cbn [ndiv num_R]. field. repeat split; lra.
Qed.

(** ** C51 *)
(** What an accepted description is turned into: the number of joints handed to every call (RobotState gives a
    transmission one joint per declared name). *)
Theorem C51_accepted_joint_count : forall (P : parsers R) R0 elt h g b c t h',
  gripper_initXml P R0 elt h (new_gripper g b c) = Ok (Some t, h') ->
  List.length (gr_passive t) = List.length (ChildElements elt "passive_joint") /\
  List.length (gr_joints t) = (List.length (ChildElements elt "gap_joint") + List.length (ChildElements elt "passive_joint")
                               + declared_simulated (ChildElements elt "simulated_actuated_joint"))%nat /\
  gr_has_passive t = existsb names_passive_actuated (ChildElements elt "simulated_actuated_joint").
Proof. intros. eapply gripper_count; eauto. Qed.

(** Without a passive_actuated_joint no vector of joints satisfies the assertions of both directions: whatever is passed,
    one of the two aborts (in a build with assertions). *)
Theorem C51_position_directions_incompatible : forall e t (as1 js as2 : list nat) (m m' : mem R), gr_has_passive t = false ->
  gripper_propagatePosition true t as1 js m = Abort \/ gripper_propagatePositionBackwards true e t js as2 m' = Abort.
Proof.
  intros e t as1 js as2 m m' H. unfold gripper_propagatePosition, gripper_propagatePositionBackwards, gripper_size_fwd, gripper_size_posback. rewrite H.
  destruct (List.length as1 =? 1)%nat; [|left; reflexivity]. destruct (List.length as2 =? 1)%nat; [|right; reflexivity].
  destruct (Nat.eqb_spec (List.length js) (1 + List.length (gr_passive t) + 1)); [|left; reflexivity].
  destruct (Nat.eqb_spec (List.length js) 1); [lia|right; reflexivity].
Qed.
Theorem C51_effort_directions_incompatible : forall t (as1 js as2 : list nat) (m m' : mem R), gr_has_passive t = false ->
  gripper_propagateEffort true t js as1 m = Abort \/ gripper_propagateEffortBackwards true t as2 js m' = Abort.
Proof.
  intros t as1 js as2 m m' H. unfold gripper_propagateEffort, gripper_propagateEffortBackwards, gripper_size_fwd, gripper_size_effback. rewrite H.
  destruct (List.length as1 =? 1)%nat; [|left; reflexivity]. destruct (List.length as2 =? 1)%nat; [|right; reflexivity].
  destruct (Nat.eqb_spec (List.length js) (1 + List.length (gr_passive t) + 1)); [|left; reflexivity].
  destruct (Nat.eqb_spec (List.length js) (1 + List.length (gr_passive t) + 2)); [lia|right; reflexivity].
Qed.

(** With one gap joint and no simulated joint every accepted description is unusable: an assertion fails, or without
    assertions a joint beyond the end of the vector is accessed. *)
Theorem C51_no_simulated_joint_unusable : forall (P : parsers R) R0 elt h g b c t h',
  gripper_initXml P R0 elt h (new_gripper g b c) = Ok (Some t, h') ->
  List.length (ChildElements elt "gap_joint") = 1%nat -> ChildElements elt "simulated_actuated_joint" = [] ->
  forall a js m, List.length js = List.length (gr_joints t) ->
  gripper_propagatePosition true t [a] js m = Abort /\ gripper_propagatePosition false t [a] js m = UB.
Proof.
  intros P R0 elt h g b c t h' H HG HS a js m Hl. destruct (C51_accepted_joint_count _ _ _ _ _ _ _ _ _ H) as [C1 [C2 C3]].
  rewrite HG, HS in *. unfold declared_simulated in C2. simpl in C2, C3.
  assert (LJ : List.length js = S (List.length (gr_passive t))) by lia.
  unfold gripper_propagatePosition, gripper_size_fwd. rewrite C3. split.
  - destruct (Nat.eqb_spec (List.length js) (1 + List.length (gr_passive t) + 1)); [lia|reflexivity].
  - unfold cassert. cbn [andb bind vget nth_error]. destruct js as [|j0 js]; [discriminate|]. simpl in LJ. injection LJ as LJ.
    cbn [vget nth_error bind].
    assert (PL : forall ps i pre p v e (mm : mem R), i = List.length pre -> exists m1, passive_loop (List.length ps) i p v e (pre ++ ps) mm = Ok m1).
    { induction ps as [|q ps IH]; intros i pre p v e mm Hi; [eexists; reflexivity|]. cbn [passive_loop List.length].
      assert (V : vget (pre ++ q :: ps) i = Ok q) by (unfold vget; rewrite nth_error_app2 by lia; subst i; rewrite Nat.sub_diag; reflexivity).
      rewrite V. cbn [bind]. 
      match goal with |- context [passive_loop _ _ _ _ _ _ ?m'] => destruct (IH (S i) (pre ++ [q]) p v e m') as [m1 E]; [rewrite app_length; simpl; lia|] end.
      rewrite <- app_assoc in E. cbn [app] in E. exists m1. exact E. }
    rewrite <- LJ.
    match goal with |- context [passive_loop _ 1 ?p ?v ?e (j0 :: js) ?mm] => destruct (PL js 1%nat [j0] p v e mm eq_refl) as [m1 E] end.
    cbn [app] in E. rewrite E. cbn [bind].
    assert (V : vget (j0 :: js) (List.length js + 1) = UB).
    { unfold vget. replace (nth_error (j0 :: js) (List.length js + 1)) with (@None nat); [reflexivity|]. symmetry. apply nth_error_None. simpl. lia. }
    rewrite V. reflexivity.
Qed.

(** With exactly one gap joint and one simulated joint that names a passive actuated joint all four directions run. *)
Theorem C51_complete_description_usable : forall (P : parsers R) R0 elt h g b c t h',
  gripper_initXml P R0 elt h (new_gripper g b c) = Ok (Some t, h') ->
  List.length (ChildElements elt "gap_joint") = 1%nat ->
  (exists s, ChildElements elt "simulated_actuated_joint" = [s] /\ names_passive_actuated s = true) ->
  0 < gr_sim_red t ->
  forall dbg e a js m, List.length js = List.length (gr_joints t) -> NoDup js -> (forall j, In j js -> js_joint (m_js m j) <> None) ->
  (exists m', gripper_propagatePosition dbg t [a] js m = Ok m') /\
  (exists t' m', gripper_propagatePositionBackwards dbg e t js [a] m = Ok (t', m')) /\
  (exists m', gripper_propagateEffort dbg t js [a] m = Ok m') /\
  (exists m', gripper_propagateEffortBackwards dbg t [a] js m = Ok m').
Proof.
  intros P R0 elt h g b c t h' H HG [s [HS Hs]] Hsim dbg e a js m Hl Hnd HJ.
  destruct (C51_accepted_joint_count _ _ _ _ _ _ _ _ _ H) as [C1 [C2 C3]].
  rewrite HG, HS in *. unfold declared_simulated in C2. simpl in C2, C3. rewrite Hs in C2, C3. simpl in C2, C3.
  destruct js as [|j0 js]; [simpl in Hl; lia|]. simpl in Hl.
  set (np := List.length (gr_passive t)) in *.
  assert (V : gripper_vector t j0 (firstn np js) (skipn np js) (j0 :: js)).
  { repeat split; [rewrite firstn_skipn; reflexivity|rewrite firstn_length; lia|rewrite skipn_length, C3; lia|exact Hnd]. }
  assert (CA : cassert dbg true = Ok tt) by (destruct dbg; reflexivity).
  split; [|split; [|split]].
  - destruct (gripper_forward dbg t a _ _ _ _ m V) as [m1 [E _]]. eauto.
  - destruct (gripper_backward dbg e t a _ _ _ _ m V C3) as [t' [m1 [E _]]]; [apply HJ; left; reflexivity|]. eauto.
  - unfold gripper_propagateEffort, gripper_size_fwd. rewrite C3. fold np.
    replace (List.length (j0 :: js) =? 1 + np + 2)%nat with true by (symmetry; apply Nat.eqb_eq; simpl; lia).
    change (List.length [a] =? 1)%nat with true. rewrite !CA. cbn [bind vget nth_error].
    destruct (inverseGapStates t _) as [[[? ?] ?] ?]. eauto.
  - unfold gripper_propagateEffortBackwards, gripper_size_effback. fold np.
    replace (List.length (j0 :: js) =? 1 + np + 2)%nat with true by (symmetry; apply Nat.eqb_eq; simpl; lia).
    change (nltb nzero (gr_sim_red t)) with (Rlt_bool 0 (gr_sim_red t)). rewrite Rlt_bool_true by exact Hsim.
    change (List.length [a] =? 1)%nat with true. rewrite !CA. cbn [bind vget nth_error].
    destruct (vget (j0 :: js) (np + 1)) as [k| | |] eqn:EV; try (unfold vget in EV; destruct (nth_error (j0 :: js) (np + 1)) eqn:EN; [discriminate|]; apply nth_error_None in EN; simpl in EN; lia).
    cbn [bind]. eauto.
Qed.

(** Non-vacuity: a described gripper (a triangle with sides 1 and 1, one passive joint), one motor revolution in. *)
Local Open Scope string_scope.
Definition ex_grip_doc (sim : list xml) : xml := Elem "transmission" [("name", "g")] None
  ([Elem "actuator" [("name", "m")] None [];
    Elem "gap_joint" [("name", "gap"); ("mechanical_reduction", "1"); ("screw_reduction", "1"); ("gear_ratio", "2"); ("theta0", "0"); ("phi0", "pi/2");
                      ("t0", "0"); ("L0", "1/2"); ("h", "1"); ("a", "1"); ("b", "1"); ("r", "1")] None [];
    Elem "passive_joint" [("name", "finger")] None []] ++ sim).
Definition ex_sim : list xml := [Elem "simulated_actuated_joint" [("name", "screw"); ("simulated_reduction", "1"); ("passive_actuated_joint", "slider")] None []].
Definition ex_gp : parsers R := mkParsers (fun _ => 0)
  (fun s => Some (if String.eqb s "0" then 0 else if String.eqb s "1" then 1 else if String.eqb s "2" then 2 else if String.eqb s "1/2" then 1/2 else PI/2))
  (fun _ => None).
Definition ex_brv' : rview R := mkRview (fun n => Some (mkUjoint n JREVOLUTE None None None)) (fun n => Some 0%nat).

Definition ex_grip : gripper R := mkGripper "g" ["m"] ["gap"; "finger"; "screw"; "slider"] "gap" 1 1 false true ["finger"]
  1 2 0 (PI/2) 0 (1/2) 1 1 1 1 false 0 (new_calsim 0 0 0 0 false false).
Lemma ex_grip_accepted : exists h, gripper_initXml ex_gp ex_brv' (ex_grip_doc ex_sim) (fun _ => new_actuator 0) (new_gripper 0 false (new_calsim 0 0 0 0 false false)) = Ok (Some ex_grip, h).
Proof. eexists. reflexivity. Qed.

Example C49_C50_ex :
  gripper_vector ex_grip 0 [1%nat] [2%nat; 3%nat] [0; 1; 2; 3]%nat /\ gr_has_passive ex_grip = true /\ mechanism ex_grip /\
  linkage ex_grip (2 * PI) (PI / 2) /\ upright ex_grip (2 * PI) (PI / 2) /\ regular ex_grip (2 * PI) (PI / 2) /\
  gap_in_range ex_grip 0 (PI / 2) /\ 0 < gr_sim_red ex_grip.
Proof.
  pose proof PI_RGT_0.
  assert (RV : revolutions ex_grip (2 * PI) = 1) by (unfold revolutions; change (gr_red ex_grip) with 1; field; lra).
  assert (SL : screw_length ex_grip (2 * PI) = 1) by (unfold screw_length, pitch; rewrite RV; change (gr_L0 ex_grip) with (1/2); change (gr_screw ex_grip) with 1; change (gr_gear ex_grip) with 2; field).
  assert (FA : finger_angle ex_grip (PI / 2) = 0) by (unfold finger_angle; change (gr_theta0 ex_grip) with 0; change (gr_phi0 ex_grip) with (PI / 2); lra).
  unfold mechanism, linkage, upright, regular, gap_in_range, gap_of. rewrite RV, SL, FA, cos_PI2, sin_PI2, cos_0, sin_0.
  change (gr_theta0 ex_grip) with 0. change (gr_a ex_grip) with 1. change (gr_b ex_grip) with 1. change (gr_h ex_grip) with 1. change (gr_r ex_grip) with 1.
  change (gr_red ex_grip) with 1. change (gr_screw ex_grip) with 1. change (gr_gear ex_grip) with 2. change (gr_t0 ex_grip) with 0. change (gr_sim_red ex_grip) with 1. rewrite sin_0.
  split; [|repeat split; lra]. repeat split. repeat constructor; simpl; lia.
Qed.

Definition ex_grip0 : gripper R := mkGripper "g" ["m"] ["gap"; "finger"] "gap" 1 0 false false ["finger"]
  1 2 0 (PI/2) 0 (1/2) 1 1 1 1 false 0 (new_calsim 0 0 0 0 false false).
Example C51_ex : (exists h, gripper_initXml ex_gp ex_brv' (ex_grip_doc []) (fun _ => new_actuator 0) (new_gripper 0 false (new_calsim 0 0 0 0 false false)) = Ok (Some ex_grip0, h)) /\
  gr_has_passive ex_grip0 = false /\ List.length (ChildElements (ex_grip_doc []) "gap_joint") = 1%nat.
Proof. split; [eexists; reflexivity|]. split; reflexivity. Qed.
