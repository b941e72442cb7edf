(** C88: how accurate the simple and the wrist transmission are in double arithmetic. *)
From Coq Require Import List Reals Arith Bool ZArith Lia Lra String.
From Flocq Require Import Core.Core IEEE754.BinarySingleNaN.
From Verif.Model Require Import Base Num Joint Hardware Xml Transmission Simple Wrist.
From Verif.Spec Require Import TransmissionSpec FloatSpec.
From Verif.Proofs Require Import NumFacts Rounding TransmissionProofs FloatTransmission.
Import ListNotations.
Local Open Scope R_scope.

Lemma ordinary_nz k : ordinary k -> B2R k <> 0.
Proof. intros [F [L U]] E. rewrite E, Rabs_R0 in L. pose proof (bpow_gt_0 radix2 (-100)). lra. Qed.
Lemma ordinary_nz' k : ordinary k -> Rabs (B2R k) <> 0.
Proof. intros O. apply Rabs_no_R0. apply ordinary_nz. auto. Qed.

(** the size of the terms is compared by algebra *)
Ltac sizes := unfold Rdiv in *; rewrite ?Rabs_mult, ?Rabs_inv;
  repeat match goal with H : ordinary ?k |- _ => apply ordinary_nz' in H end;
  try (apply Req_le; field; repeat split; auto; lra).
Ltac exact_value := repeat match goal with H : ordinary ?k |- _ => apply ordinary_nz in H end; try reflexivity; field; auto.
Ltac roundings := eapply apz_within; [chain|lia|lia|exact_value|sizes].

Section Float.
(** any fmod, sqrt, sin, ... : they only matter for the simulated calibration flags *)
Context {G : Trig B64}.

(** ** the simple transmission *)
Theorem C88_simple_forward : forall dbg (t : simple B64) a js q m,
  simple_vecs t js q -> ordinary (st_red t) -> moderate_a (m_act m a) -> moderate (reference_position (m_js m q)) ->
  let pos := B2R (a_position (m_act m a)) in let vel := B2R (a_velocity (m_act m a)) in
  let eff := B2R (a_last_measured_effort (m_act m a)) in
  let red := B2R (st_red t) in let ref := B2R (reference_position (m_js m q)) in
  exists m1, simple_propagatePosition dbg t [a] js m = Ok m1 /\
    within 4 (position (m_js m1 q)) (pos / red + ref) (Rabs (pos / red) + Rabs ref) /\
    within 2 (velocity (m_js m1 q)) (vel / red) (Rabs (vel / red)) /\
    within 2 (measured_effort (m_js m1 q)) (eff * red) (Rabs (eff * red)).
Proof.
  intros dbg t a js q m V O [MP [MV ME]] MR. cbv zeta.
  destruct (sforward dbg t a js q m V) as (m1 & E & _ & P1 & P2 & P3 & _). exists m1. split; auto. rewrite P1, P2, P3.
  split; [|split]; roundings.
Qed.

(** actuator -> joint -> actuator *)
Theorem C88_simple_actuator_roundtrip : forall dbg e (t : simple B64) a js q m,
  simple_vecs t js q -> ordinary (st_red t) -> js_joint (m_js m q) <> None ->
  moderate_a (m_act m a) -> moderate (reference_position (m_js m q)) ->
  let pos := B2R (a_position (m_act m a)) in let vel := B2R (a_velocity (m_act m a)) in
  let eff := B2R (a_last_measured_effort (m_act m a)) in
  let red := B2R (st_red t) in let ref := B2R (reference_position (m_js m q)) in
  exists m1 t' m2, simple_propagatePosition dbg t [a] js m = Ok m1 /\
    simple_propagatePositionBackwards dbg e t js [a] m1 = Ok (t', m2) /\
    within 8 (a_position (m_act m2 a)) pos (Rabs pos + 2 * Rabs (ref * red)) /\
    within 4 (a_velocity (m_act m2 a)) vel (Rabs vel) /\
    within 4 (a_last_measured_effort (m_act m2 a)) eff (Rabs eff).
Proof.
  intros dbg e t a js q m V O Hj [MP [MV ME]] MR. cbv zeta.
  destruct (sforward dbg t a js q m V) as (m1 & E & _ & P1 & P2 & P3 & C).
  assert (Hj1 : js_joint (m_js m1 q) <> None) by (destruct C as [<- _]; auto).
  destruct (sbackward dbg e t a js q m1 V Hj1) as (t' & m2 & E2 & _ & Q1 & Q2 & Q3 & _).
  exists m1, t', m2. split; auto. split; auto. destruct C as [_ [_ [_ [_ C]]]].
  rewrite Q1, Q2, Q3, P1, P2, P3, <- C.
  split; [|split]; roundings.
Qed.

(** joint -> actuator -> joint *)
Theorem C88_simple_joint_roundtrip : forall dbg e (t : simple B64) a js q m,
  simple_vecs t js q -> ordinary (st_red t) -> js_joint (m_js m q) <> None -> moderate_j (m_js m q) ->
  let pos := B2R (position (m_js m q)) in let vel := B2R (velocity (m_js m q)) in
  let eff := B2R (measured_effort (m_js m q)) in let ref := B2R (reference_position (m_js m q)) in
  exists t' m1 m2, simple_propagatePositionBackwards dbg e t js [a] m = Ok (t', m1) /\
    simple_propagatePosition dbg t' [a] js m1 = Ok m2 /\
    within 8 (position (m_js m2 q)) pos (Rabs pos + 2 * Rabs ref) /\
    within 4 (velocity (m_js m2 q)) vel (Rabs vel) /\
    within 4 (measured_effort (m_js m2 q)) eff (Rabs eff).
Proof.
  intros dbg e t a js q m V O Hj [MP [MV [ME MR]]]. cbv zeta.
  destruct (sbackward dbg e t a js q m V Hj) as (t' & m1 & E2 & [F2 _] & Q1 & Q2 & Q3 & R1 & R2 & R3).
  assert (V' : simple_vecs t' js q) by (unfold simple_vecs in *; rewrite R2; auto).
  destruct (sforward dbg t' a js q m1 V') as (m2 & E & _ & P1 & P2 & P3 & C).
  exists t', m1, m2. split; auto. split; auto.
  rewrite P1, P2, P3, Q1, Q2, Q3, R1, F2.
  split; [|split]; roundings.
Qed.

(** commands: the effort sent, and joint -> actuator -> joint *)
Theorem C88_simple_effort : forall dbg (t : simple B64) a js q m,
  simple_vecs t js q -> ordinary (st_red t) -> moderate (commanded_effort (m_js m q)) ->
  let eff := B2R (commanded_effort (m_js m q)) in let red := B2R (st_red t) in
  exists m1, simple_propagateEffort dbg t js [a] m = Ok m1 /\
    within 2 (a_effort (m_act m1 a)) (eff / red) (Rabs (eff / red)) /\
    (st_use_sim t = false -> exists m2, simple_propagateEffortBackwards dbg t [a] [q] m1 = Ok m2 /\
      within 4 (commanded_effort (m_js m2 q)) eff (Rabs eff)).
Proof.
  intros dbg t a js q m V O ME. cbv zeta.
  destruct (seffort dbg t a js q m V) as (m1 & E & _ & _ & _ & P). exists m1. split; auto. split.
  - rewrite P. roundings.
  - intros U. destruct (seffort_back dbg t a q m1 U) as (m2 & E2 & _ & Q). exists m2. split; auto. rewrite Q, P. roundings.
Qed.

(** ** the wrist transmission *)
Theorem C88_wrist_forward : forall dbg (t : wrist B64) p0 p1 q0 q1 ar0 ar1 jr0 jr1 m,
  wrist_shape t p0 p1 q0 q1 ar0 ar1 jr0 jr1 -> ordinary ar0 -> ordinary ar1 -> ordinary jr0 -> ordinary jr1 ->
  moderate (wt_off0 t) -> moderate (wt_off1 t) -> moderate_a (m_act m p0) -> moderate_a (m_act m p1) ->
  moderate (reference_position (m_js m q0)) -> moderate (reference_position (m_js m q1)) ->
  let P0 := B2R (a_position (m_act m p0)) / B2R ar0 in let P1 := B2R (a_position (m_act m p1)) / B2R ar1 in
  let V0 := B2R (a_velocity (m_act m p0)) / B2R ar0 in let V1 := B2R (a_velocity (m_act m p1)) / B2R ar1 in
  let E0 := B2R (a_last_measured_effort (m_act m p0)) * B2R ar0 in let E1 := B2R (a_last_measured_effort (m_act m p1)) * B2R ar1 in
  let J0 := B2R jr0 in let J1 := B2R jr1 in
  let R0 := B2R (reference_position (m_js m q0)) in let R1 := B2R (reference_position (m_js m q1)) in
  let O0 := B2R (wt_off0 t) in let O1 := B2R (wt_off1 t) in
  exists m1, wrist_propagatePosition dbg t [p0; p1] [q0; q1] m = Ok m1 /\
    within 10 (position (m_js m1 q0)) ((P0 - P1) / (2 * J0) + R0 + O0) ((Rabs P0 + Rabs P1) / (2 * Rabs J0) + Rabs R0 + Rabs O0) /\
    within 10 (position (m_js m1 q1)) ((- P0 - P1) / (2 * J1) + R1 + O1) ((Rabs P0 + Rabs P1) / (2 * Rabs J1) + Rabs R1 + Rabs O1) /\
    within 6 (velocity (m_js m1 q0)) ((V0 - V1) / (2 * J0)) ((Rabs V0 + Rabs V1) / (2 * Rabs J0)) /\
    within 6 (velocity (m_js m1 q1)) ((- V0 - V1) / (2 * J1)) ((Rabs V0 + Rabs V1) / (2 * Rabs J1)) /\
    within 6 (measured_effort (m_js m1 q0)) (J0 * (E0 - E1)) (Rabs J0 * (Rabs E0 + Rabs E1)) /\
    within 6 (measured_effort (m_js m1 q1)) (J1 * (- E0 - E1)) (Rabs J1 * (Rabs E0 + Rabs E1)).
Proof.
  intros dbg t p0 p1 q0 q1 ar0 ar1 jr0 jr1 m W A0 A1 B0 B1 M0 M1 [X1 [X2 X3]] [Y1 [Y2 Y3]] N0 N1. cbv zeta.
  destruct (wforward dbg t p0 p1 q0 q1 ar0 ar1 jr0 jr1 m W) as (m1 & E & _ & (P0 & V0 & F0 & P1 & V1 & F1) & _).
  exists m1. split; auto. rewrite P0, V0, F0, P1, V1, F1.
  split; [|split; [|split; [|split; [|split]]]]; roundings.
Qed.

(** actuators -> joints -> actuators *)
Theorem C88_wrist_actuator_roundtrip : forall dbg e (t : wrist B64) p0 p1 q0 q1 ar0 ar1 jr0 jr1 m,
  wrist_shape t p0 p1 q0 q1 ar0 ar1 jr0 jr1 -> ordinary ar0 -> ordinary ar1 -> ordinary jr0 -> ordinary jr1 ->
  js_joint (m_js m q0) <> None -> js_joint (m_js m q1) <> None ->
  moderate (wt_off0 t) -> moderate (wt_off1 t) -> moderate_a (m_act m p0) -> moderate_a (m_act m p1) ->
  moderate (reference_position (m_js m q0)) -> moderate (reference_position (m_js m q1)) ->
  let pos0 := B2R (a_position (m_act m p0)) in let pos1 := B2R (a_position (m_act m p1)) in
  let vel0 := B2R (a_velocity (m_act m p0)) in let vel1 := B2R (a_velocity (m_act m p1)) in
  let eff0 := B2R (a_last_measured_effort (m_act m p0)) in let eff1 := B2R (a_last_measured_effort (m_act m p1)) in
  let A0 := Rabs (B2R ar0) in let A1 := Rabs (B2R ar1) in
  let shift := Rabs (B2R jr0) * (Rabs (B2R (reference_position (m_js m q0))) + Rabs (B2R (wt_off0 t))) +
               Rabs (B2R jr1) * (Rabs (B2R (reference_position (m_js m q1))) + Rabs (B2R (wt_off1 t))) in
  exists m1 t' m2, wrist_propagatePosition dbg t [p0; p1] [q0; q1] m = Ok m1 /\
    wrist_propagatePositionBackwards dbg e t [q0; q1] [p0; p1] m1 = Ok (t', m2) /\
    within 20 (a_position (m_act m2 p0)) pos0 (Rabs pos0 + A0 * (Rabs pos1 / A1) + 2 * A0 * shift) /\
    within 20 (a_position (m_act m2 p1)) pos1 (Rabs pos1 + A1 * (Rabs pos0 / A0) + 2 * A1 * shift) /\
    within 12 (a_velocity (m_act m2 p0)) vel0 (Rabs vel0 + A0 * (Rabs vel1 / A1)) /\
    within 12 (a_velocity (m_act m2 p1)) vel1 (Rabs vel1 + A1 * (Rabs vel0 / A0)) /\
    within 12 (a_last_measured_effort (m_act m2 p0)) eff0 (Rabs eff0 + A1 * Rabs eff1 / A0) /\
    within 12 (a_last_measured_effort (m_act m2 p1)) eff1 (Rabs eff1 + A0 * Rabs eff0 / A1).
Proof.
  intros dbg e t p0 p1 q0 q1 ar0 ar1 jr0 jr1 m W A0 A1 B0 B1 K0 K1 M0 M1 [X1 [X2 X3]] [Y1 [Y2 Y3]] N0 N1. cbv zeta.
  destruct (wforward dbg t p0 p1 q0 q1 ar0 ar1 jr0 jr1 m W) as (m1 & E & _ & (P0 & V0 & F0 & P1 & V1 & F1) & C0 & C1).
  destruct (wbackward dbg e t p0 p1 q0 q1 ar0 ar1 jr0 jr1 m1 W) as (t' & m2 & E2 & _ & (Q0 & U0 & D0 & Q1 & U1 & D1) & _).
  { destruct C0 as [<- _]. auto. } { destruct C1 as [<- _]. auto. }
  exists m1, t', m2. split; auto. split; auto.
  destruct C0 as [_ [_ [_ [_ R0]]]], C1 as [_ [_ [_ [_ R1]]]].
  rewrite Q0, U0, D0, Q1, U1, D1, P0, V0, F0, P1, V1, F1, <- R0, <- R1.
  split; [|split; [|split; [|split; [|split]]]]; roundings.
Qed.

(** joints -> actuators -> joints *)
Theorem C88_wrist_joint_roundtrip : forall dbg e (t : wrist B64) p0 p1 q0 q1 ar0 ar1 jr0 jr1 m,
  wrist_shape t p0 p1 q0 q1 ar0 ar1 jr0 jr1 -> ordinary ar0 -> ordinary ar1 -> ordinary jr0 -> ordinary jr1 ->
  js_joint (m_js m q0) <> None -> js_joint (m_js m q1) <> None ->
  moderate (wt_off0 t) -> moderate (wt_off1 t) -> moderate_j (m_js m q0) -> moderate_j (m_js m q1) ->
  let pos0 := B2R (position (m_js m q0)) in let pos1 := B2R (position (m_js m q1)) in
  let vel0 := B2R (velocity (m_js m q0)) in let vel1 := B2R (velocity (m_js m q1)) in
  let eff0 := B2R (measured_effort (m_js m q0)) in let eff1 := B2R (measured_effort (m_js m q1)) in
  let J0 := Rabs (B2R jr0) in let J1 := Rabs (B2R jr1) in
  let shift0 := Rabs (B2R (reference_position (m_js m q0))) + Rabs (B2R (wt_off0 t)) in
  let shift1 := Rabs (B2R (reference_position (m_js m q1))) + Rabs (B2R (wt_off1 t)) in
  exists t' m1 m2, wrist_propagatePositionBackwards dbg e t [q0; q1] [p0; p1] m = Ok (t', m1) /\
    wrist_propagatePosition dbg t' [p0; p1] [q0; q1] m1 = Ok m2 /\
    within 20 (position (m_js m2 q0)) pos0 (Rabs pos0 + 2 * shift0 + J1 / J0 * (Rabs pos1 + shift1)) /\
    within 20 (position (m_js m2 q1)) pos1 (Rabs pos1 + 2 * shift1 + J0 / J1 * (Rabs pos0 + shift0)) /\
    within 12 (velocity (m_js m2 q0)) vel0 (Rabs vel0 + J1 / J0 * Rabs vel1) /\
    within 12 (velocity (m_js m2 q1)) vel1 (Rabs vel1 + J0 / J1 * Rabs vel0) /\
    within 12 (measured_effort (m_js m2 q0)) eff0 (Rabs eff0 + J0 / J1 * Rabs eff1) /\
    within 12 (measured_effort (m_js m2 q1)) eff1 (Rabs eff1 + J1 / J0 * Rabs eff0).
Proof.
  intros dbg e t p0 p1 q0 q1 ar0 ar1 jr0 jr1 m W A0 A1 B0 B1 K0 K1 M0 M1 [X1 [X2 [X3 X4]]] [Y1 [Y2 [Y3 Y4]]]. cbv zeta.
  destruct (wbackward dbg e t p0 p1 q0 q1 ar0 ar1 jr0 jr1 m W K0 K1) as (t' & m1 & E2 & [F2 _] & (Q0 & U0 & D0 & Q1 & U1 & D1) & T1 & T2 & T3 & T4).
  assert (W' : wrist_shape t' p0 p1 q0 q1 ar0 ar1 jr0 jr1) by (destruct W; split; congruence).
  destruct (wforward dbg t' p0 p1 q0 q1 ar0 ar1 jr0 jr1 m1 W') as (m2 & E & _ & (P0 & V0 & F0 & P1 & V1 & F1) & _).
  exists t', m1, m2. split; auto. split; auto.
  rewrite P0, V0, F0, P1, V1, F1, Q0, U0, D0, Q1, U1, D1, !F2, T3, T4.
  split; [|split; [|split; [|split; [|split]]]]; roundings.
Qed.

(** commands: the efforts sent, and joints -> actuators -> joints *)
Theorem C88_wrist_effort : forall dbg (t : wrist B64) p0 p1 q0 q1 ar0 ar1 jr0 jr1 m,
  wrist_shape t p0 p1 q0 q1 ar0 ar1 jr0 jr1 -> ordinary ar0 -> ordinary ar1 -> ordinary jr0 -> ordinary jr1 ->
  moderate (commanded_effort (m_js m q0)) -> moderate (commanded_effort (m_js m q1)) ->
  let eff0 := B2R (commanded_effort (m_js m q0)) in let eff1 := B2R (commanded_effort (m_js m q1)) in
  let A0 := B2R ar0 in let A1 := B2R ar1 in let J0 := B2R jr0 in let J1 := B2R jr1 in
  exists m1 m2, wrist_propagateEffort dbg t [q0; q1] [p0; p1] m = Ok m1 /\
    wrist_propagateEffortBackwards dbg t [p0; p1] [q0; q1] m1 = Ok m2 /\
    within 6 (a_effort (m_act m1 p0)) ((eff0 / J0 - eff1 / J1) / (2 * A0)) ((Rabs (eff0 / J0) + Rabs (eff1 / J1)) / (2 * Rabs A0)) /\
    within 6 (a_effort (m_act m1 p1)) ((- eff0 / J0 - eff1 / J1) / (2 * A1)) ((Rabs (eff0 / J0) + Rabs (eff1 / J1)) / (2 * Rabs A1)) /\
    within 12 (commanded_effort (m_js m2 q0)) eff0 (Rabs eff0 + Rabs J0 * Rabs (eff1 / J1)) /\
    within 12 (commanded_effort (m_js m2 q1)) eff1 (Rabs eff1 + Rabs J1 * Rabs (eff0 / J0)).
Proof.
  intros dbg t p0 p1 q0 q1 ar0 ar1 jr0 jr1 m W A0 A1 B0 B1 X Y. cbv zeta.
  destruct (weffort dbg t p0 p1 q0 q1 ar0 ar1 jr0 jr1 m W) as (m1 & E & [F _] & (P0 & P1) & _).
  destruct (weffort_back dbg t p0 p1 q0 q1 ar0 ar1 jr0 jr1 m1 W) as (m2 & E2 & _ & (Q0 & Q1)).
  exists m1, m2. split; auto. split; auto. rewrite Q0, Q1, P0, P1.
  split; [|split; [|split]]; roundings.
Qed.
End Float.

(** ** the hypotheses are met, and exact equality fails *)
Definition f500 : B64 := @B754_finite 53 1024 false 4503599627370496 448 eq_refl.
Definition f100 : B64 := @B754_finite 53 1024 false 4503599627370496 48 eq_refl.
Definition fm100 : B64 := @B754_finite 53 1024 false 4503599627370496 (-152) eq_refl.
Lemma pow2_val e (B : SpecFloat.bounded 53 1024 4503599627370496 e = true) : B2R (@B754_finite 53 1024 false 4503599627370496 e B) = bpow radix2 (52 + e).
Proof.
  unfold B2R, F2R. cbn [Fnum Fexp cond_Zopp]. rewrite bpow_plus. f_equal.
Qed.
Lemma abs_le (x y : B64) : is_finite x = true -> is_finite y = true -> Bleb (Babs x) y = true -> Rabs (B2R x) <= B2R y.
Proof.
  intros Fx Fy E. rewrite (Bleb_correct 53 1024) in E; auto; [|rewrite is_finite_Babs; auto]. rewrite B2R_Babs in E.
  destruct (Rle_bool_spec (Rabs (B2R x)) (B2R y)); auto. discriminate.
Qed.
Lemma le_abs (x y : B64) : is_finite x = true -> is_finite y = true -> Bleb y (Babs x) = true -> B2R y <= Rabs (B2R x).
Proof.
  intros Fx Fy E. rewrite (Bleb_correct 53 1024) in E; auto; [|rewrite is_finite_Babs; auto]. rewrite B2R_Babs in E.
  destruct (Rle_bool_spec (B2R y) (Rabs (B2R x))); auto. discriminate.
Qed.
Lemma moderate_check x : is_finite x && Bleb (Babs x) f500 = true -> moderate x.
Proof.
  intros E. apply andb_true_iff in E. destruct E as [F E]. split; auto. apply abs_le in E; auto.
  unfold f500 in E. rewrite pow2_val in E. exact E.
Qed.
Lemma ordinary_check x : is_finite x && (Bleb fm100 (Babs x) && Bleb (Babs x) f100) = true -> ordinary x.
Proof.
  intros E. apply andb_true_iff in E. destruct E as [F E]. apply andb_true_iff in E. destruct E as [E1 E2]. split; auto.
  apply le_abs in E1; auto. apply abs_le in E2; auto. unfold fm100, f100 in E1, E2. rewrite pow2_val in E1, E2. split; [exact E1|exact E2].
Qed.

Definition exf_cal : calsim B64 := new_calsim nzero nzero nzero nzero false false.
Definition exf_simple : simple B64 := mkSimple "t" ["a"%string] ["j"%string] (nofZ (-49)) nzero false false 0 exf_cal.
Definition exf_wrist : wrist B64 := mkWrist "w" ["l"; "r"]%string ["f"; "o"]%string [nofZ 49; nofZ (-60)] [ndec 31 1; nofZ (-1)] (ndec 1 1) nzero false 0 exf_cal exf_cal.
Definition exf_act : actuator B64 := set_a_position (ndec 123456 2) (set_a_velocity none_ (set_a_last_measured_effort (ndec (-25) 1) (new_actuator nzero))).
Definition exf_joint : jointstate B64 := set_reference_position (ndec (-3) 1) (set_position (ndec 7 1) (set_commanded_effort (nofZ 3) (new_jointstate nzero))).
Definition exf_mem : mem B64 := mkMem (fun _ => exf_act) (fun _ => exf_joint).

Example C88_ex :
  simple_vecs exf_simple [0%nat] 0 /\ ordinary (st_red exf_simple) /\
  wrist_shape exf_wrist 0 1 0 1 (nofZ 49) (nofZ (-60)) (ndec 31 1) (nofZ (-1)) /\
  ordinary (nofZ 49 : B64) /\ ordinary (nofZ (-60) : B64) /\ ordinary (ndec 31 1 : B64) /\ ordinary (nofZ (-1) : B64) /\
  moderate (wt_off0 exf_wrist) /\ moderate (wt_off1 exf_wrist) /\
  moderate_a (m_act exf_mem 0) /\ moderate_j (m_js exf_mem 0) /\ moderate (commanded_effort (m_js exf_mem 0)).
Proof.
  split; [left; split; reflexivity|].
  split; [apply ordinary_check; vm_compute; reflexivity|].
  split; [split; auto|].
  do 4 (split; [apply ordinary_check; vm_compute; reflexivity|]).
  do 2 (split; [apply moderate_check; vm_compute; reflexivity|]).
  split; [split; [|split]; apply moderate_check; vm_compute; reflexivity|].
  split; [split; [|split; [|split]]; apply moderate_check; vm_compute; reflexivity|].
  apply moderate_check; vm_compute; reflexivity.
Qed.

(** In doubles the velocity 1 of a motor with reduction 49 does not survive the trip to the joint and back. *)
Example C88_roundtrip_not_exact : neqb (nmul (ndiv none_ (nofZ 49)) (nofZ 49)) (none_ : B64) = false.
Proof. vm_compute. reflexivity. Qed.
