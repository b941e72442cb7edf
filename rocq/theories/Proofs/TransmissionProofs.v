(** Shared facts about memory, the simulated clock and the calibration simulator. *)
From Coq Require Import List Reals Arith Bool ZArith Lia String.
From Verif.Model Require Import Base Num Joint Hardware Transmission.
From Verif.Spec Require Import TransmissionSpec.
Import ListNotations.

Section Gen.
Context {T : Type} {N : Num T} {G : Trig T}.

Lemma upd_same {A} p (f : A -> A) h : upd p f h p = f (h p).
Proof. unfold upd. rewrite Nat.eqb_refl. reflexivity. Qed.
Lemma upd_other {A} p q (f : A -> A) h : q <> p -> upd p f h q = h q.
Proof. intros H. unfold upd. destruct (Nat.eqb_spec q p); congruence. Qed.

Lemma act_act_same p f (m : mem T) : m_act (act_upd p f m) p = f (m_act m p).
Proof. apply upd_same. Qed.
Lemma act_act_other p q f (m : mem T) : q <> p -> m_act (act_upd p f m) q = m_act m q.
Proof. apply upd_other. Qed.
Lemma act_js p f (m : mem T) : m_js (act_upd p f m) = m_js m.
Proof. reflexivity. Qed.
Lemma js_js_same p f (m : mem T) : m_js (js_upd p f m) p = f (m_js m p).
Proof. apply upd_same. Qed.
Lemma js_js_other p q f (m : mem T) : q <> p -> m_js (js_upd p f m) q = m_js m q.
Proof. apply upd_other. Qed.
Lemma js_act p f (m : mem T) : m_act (js_upd p f m) = m_act m.
Proof. reflexivity. Qed.

(** The calibration simulator only writes calibration fields. *)
Definition same_but_calibration (a a' : actuator T) : Prop := exists r rv fv lr lf,
  a' = set_a_calibration_reading r (set_a_rising_valid rv (set_a_falling_valid fv (set_a_last_rising lr (set_a_last_falling lf a)))).

Lemma simulate_total dbg c j a : js_joint j <> None -> exists c' a',
  simulateJointCalibration dbg c j a = Ok (c', a') /\ same_but_calibration a a'.
Proof.
  intros Hj. unfold simulateJointCalibration.
  assert (E : exists c1, (if cs_got_info c then Ok c else GetJointCalibrationInfo dbg c j) = Ok c1).
  { destruct (cs_got_info c); [eauto|]. unfold GetJointCalibrationInfo. destruct (js_joint j); [|congruence].
    unfold cassert. rewrite andb_comm. simpl. eauto. }
  destruct E as [c1 ->]. cbn [bind].
  assert (K : forall r, same_but_calibration a (set_a_calibration_reading r a)).
  { intros r. exists r, (a_rising_valid a), (a_falling_valid a), (a_last_rising a), (a_last_falling a). destruct a; reflexivity. }
  assert (K1 : forall r v l, same_but_calibration a (set_a_last_rising l (set_a_rising_valid v (set_a_calibration_reading r a)))).
  { intros r v l. exists r, v, (a_falling_valid a), l, (a_last_falling a). destruct a; reflexivity. }
  assert (K2 : forall r v l, same_but_calibration a (set_a_last_falling l (set_a_falling_valid v (set_a_calibration_reading r a)))).
  { intros r v l. exists r, (a_rising_valid a), v, (a_last_rising a), l. destruct a; reflexivity. }
  eexists. eexists. split; [reflexivity|].
  repeat match goal with |- context [if ?b then _ else _] => destruct b end; auto.
Qed.

Lemma simcal_total dbg c pj pa (m : mem T) : js_joint (m_js m pj) <> None -> exists c' a',
  simcal_mem dbg c pj pa m = Ok (c', act_upd pa (fun _ => a') m) /\ same_but_calibration (m_act m pa) a'.
Proof.
  intros Hj. unfold simcal_mem. destruct (simulate_total dbg c (m_js m pj) (m_act m pa) Hj) as [c' [a' [-> K]]].
  cbn [bind]. eauto.
Qed.

Lemma sbc_fields a a' : same_but_calibration a a' ->
  a_position a' = a_position a /\ a_velocity a' = a_velocity a /\ a_last_measured_effort a' = a_last_measured_effort a /\
  a_effort a' = a_effort a /\ a_enable a' = a_enable a /\ a_halted a' = a_halted a /\ a_sample_timestamp a' = a_sample_timestamp a.
Proof. intros [r [rv [fv [lr [lf ->]]]]]. repeat split. Qed.

Lemma set_stamp_fields z (a : actuator T) :
  a_position (set_stamp z a) = a_position a /\ a_velocity (set_stamp z a) = a_velocity a /\
  a_last_measured_effort (set_stamp z a) = a_last_measured_effort a /\ a_effort (set_stamp z a) = a_effort a /\
  a_enable (set_stamp z a) = a_enable a.
Proof. repeat split. Qed.
End Gen.
