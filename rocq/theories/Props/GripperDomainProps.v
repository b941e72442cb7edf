(** C93: the gripper transmission calls asin, acos and sqrt only where they are defined. *)
From Coq Require Import List String Reals Bool Arith ZArith Lia Lra.
From Flocq Require Import Core.Core IEEE754.BinarySingleNaN.
From Verif.Model Require Import Base Num Joint Hardware Xml Transmission Gripper.
From Verif.Spec Require Import GripperSpec.
From Verif.Proofs Require Import NumFacts.
Import ListNotations.
Local Open Scope R_scope.

Lemma one_ord : b64_ord (nofZ 1) = Some 1.
Proof. rewrite b64_ord_finite by reflexivity. f_equal. cbv. lra. Qed.
Lemma mone_ord : b64_ord (nopp (nofZ 1)) = Some (-1).
Proof. rewrite b64_ord_finite by reflexivity. f_equal. cbv. lra. Qed.

Lemma in_unit_ord x : in_unit x = match b64_ord x with None => true | Some r => Rle_bool (-1) r && Rle_bool r 1 end.
Proof.
  pose proof bpow1024_pos. assert (1 < bpow radix2 1024) by (apply (bpow_lt radix2 0 1024); lia).
  destruct x as [s|s| |s]; cbn - [bpow B2R Rle_bool]; try reflexivity.
  symmetry. destruct s.
  - destruct (Rle_bool_spec (-1) (- bpow radix2 1024)); [lra|reflexivity].
  - destruct (Rle_bool_spec (bpow radix2 1024) 1); [lra|]. apply andb_false_r.
Qed.
Lemma above_ord x : above_zero x = match b64_ord x with None => false | Some r => Rlt_bool 0 r end.
Proof.
  pose proof bpow1024_pos. destruct x as [s|s| |s]; cbn - [bpow B2R Rlt_bool]; try reflexivity.
  symmetry. destruct s; cbn [negb].
  - apply Rlt_bool_false. lra.
  - apply Rlt_bool_true. lra.
Qed.

Lemma clamp_in_unit (u : B64) :
  in_unit (if nltb u (nopp (nofZ 1)) then nopp (nofZ 1) else if nltb (nofZ 1) u then nofZ 1 else u) = true.
Proof.
  rewrite in_unit_ord. change (nltb (T := B64)) with (@Bltb 53 1024). rewrite !b64_ltb_ord, one_ord, mone_ord.
  destruct (b64_ord u) as [r|] eqn:E.
  - destruct (Rlt_bool_spec r (-1)); [rewrite mone_ord; rb; simpl; auto; lra|].
    destruct (Rlt_bool_spec 1 r); [rewrite one_ord; rb; simpl; auto; lra|].
    rewrite E. rb; simpl; auto; lra.
  - rewrite E. reflexivity.
Qed.
Lemma clamp_in_unit' (u : B64) :
  in_unit (if nltb (nofZ 1) u then nofZ 1 else if nltb u (nopp (nofZ 1)) then nopp (nofZ 1) else u) = true.
Proof.
  rewrite in_unit_ord. change (nltb (T := B64)) with (@Bltb 53 1024). rewrite !b64_ltb_ord, one_ord, mone_ord.
  destruct (b64_ord u) as [r|] eqn:E.
  - destruct (Rlt_bool_spec 1 r); [rewrite one_ord; rb; simpl; auto; lra|].
    destruct (Rlt_bool_spec r (-1)); [rewrite mone_ord; rb; simpl; auto; lra|].
    rewrite E. rb; simpl; auto; lra.
  - rewrite E. reflexivity.
Qed.
Lemma above_ltb (x : B64) : nltb (nofZ 0) x = true -> above_zero x = true.
Proof.
  change (nltb (T := B64)) with (@Bltb 53 1024). rewrite b64_ltb_ord, above_ord.
  change (b64_ord (nofZ 0)) with (Some 0). destruct (b64_ord x); congruence.
Qed.
Lemma TOL_above : above_zero TOL = true.
Proof. apply above_ltb. vm_compute. reflexivity. Qed.
Lemma floor_above (x : B64) : above_zero (if nltb TOL x then x else TOL) = true.
Proof.
  destruct (nltb TOL x) eqn:E; [|exact TOL_above]. revert E. pose proof TOL_above as P. revert P.
  change (nltb (T := B64)) with (@Bltb 53 1024). rewrite b64_ltb_ord, !above_ord.
  destruct (b64_ord TOL), (b64_ord x); try congruence.
  intros A B. revert A B. rb; auto; lra.
Qed.

Section Domain.
Variable M : Trig B64.
Variables f g h : B64 -> B64.
Notation M' := (replaced M f g h).

Lemma asin_same x : in_unit x = true -> nasin (Trig := M') x = nasin (Trig := M) x.
Proof. intros E. cbn. rewrite E. reflexivity. Qed.
Lemma acos_same x : in_unit x = true -> nacos (Trig := M') x = nacos (Trig := M) x.
Proof. intros E. cbn. rewrite E. reflexivity. Qed.
Lemma sqrt_same x : above_zero x = true -> nsqrt (Trig := M') x = nsqrt (Trig := M) x.
Proof. intros E. cbn. rewrite E. reflexivity. Qed.

Lemma compute_same t x v e : computeGapStates (G := M') t x v e = computeGapStates (G := M) t x v e.
Proof.
  unfold computeGapStates. cbv zeta.
  rewrite !(acos_same (gap_u t _)) by apply clamp_in_unit.
  rewrite !(sqrt_same (if nltb TOL _ then _ else TOL)) by apply floor_above. reflexivity.
Qed.
Lemma inverse1_same t th : inverseGapStates1 (G := M') t th = inverseGapStates1 (G := M) t th.
Proof.
  unfold inverseGapStates1. cbv zeta.
  rewrite !(sqrt_same (if nltb TOL _ then _ else TOL)) by apply floor_above.
  change (ncos (Trig := M')) with (ncos (Trig := M)). change (nsin (Trig := M')) with (nsin (Trig := M)).
  match goal with |- context [nltb nzero ?a] => set (x := a) end.
  destruct (nltb nzero x) eqn:E; [|reflexivity]. rewrite (sqrt_same x) by (apply above_ltb; exact E). reflexivity.
Qed.
Lemma inverse_same t s : inverseGapStates (G := M') t s = inverseGapStates (G := M) t s.
Proof.
  unfold inverseGapStates. cbv zeta. rewrite inverse1_same.
  change (nsin (Trig := M')) with (nsin (Trig := M)).
  rewrite asin_same by apply clamp_in_unit'. reflexivity.
Qed.

Lemma rad_same : @RAD2MR B64 _ M' = @RAD2MR B64 _ M.
Proof. reflexivity. Qed.
Lemma simcal_same dbg c q a m : simcal_mem (G := M') dbg c q a m = simcal_mem (G := M) dbg c q a m.
Proof. reflexivity. Qed.

(** All four directions, for every parameter set, every description, and every number in the actuator and the joints (NaN
    and the infinities included): what asin and acos answer outside [-1, 1], and sqrt at or below zero, has no influence
    on anything the transmission writes. *)
Theorem C93_propagate_position : forall dbg t as_ js m,
  gripper_propagatePosition (G := replaced M f g h) dbg t as_ js m = gripper_propagatePosition (G := M) dbg t as_ js m.
Proof.
  intros. unfold gripper_propagatePosition. destruct (cassert _ _); cbn [bind]; [|reflexivity..].
  destruct (cassert _ _); cbn [bind]; [|reflexivity..]. destruct (vget as_ 0) as [k0| | |]; cbn [bind]; [|reflexivity..].
  cbv zeta. rewrite rad_same, compute_same. reflexivity.
Qed.
Theorem C93_propagate_effort_backwards : forall dbg t as_ js m,
  gripper_propagateEffortBackwards (G := replaced M f g h) dbg t as_ js m = gripper_propagateEffortBackwards (G := M) dbg t as_ js m.
Proof.
  intros. unfold gripper_propagateEffortBackwards. destruct (cassert _ _); cbn [bind]; [|reflexivity..].
  destruct (cassert _ _); cbn [bind]; [|reflexivity..]. destruct (cassert _ _); cbn [bind]; [|reflexivity..].
  destruct (vget as_ 0) as [k0| | |]; cbn [bind]; [|reflexivity..].
  cbv zeta. rewrite rad_same, compute_same. reflexivity.
Qed.
Theorem C93_propagate_effort : forall dbg t js as_ m,
  gripper_propagateEffort (G := replaced M f g h) dbg t js as_ m = gripper_propagateEffort (G := M) dbg t js as_ m.
Proof.
  intros. unfold gripper_propagateEffort. destruct (cassert _ _); cbn [bind]; [|reflexivity..].
  destruct (cassert _ _); cbn [bind]; [|reflexivity..]. destruct (vget js 0) as [k1| | |]; cbn [bind]; [|reflexivity..].
  destruct (vget as_ 0) as [k0| | |]; cbn [bind]; [|reflexivity..].
  cbv zeta. rewrite inverse_same, rad_same. reflexivity.
Qed.
Theorem C93_propagate_position_backwards : forall dbg e t js as_ m,
  gripper_propagatePositionBackwards (G := replaced M f g h) dbg e t js as_ m
  = gripper_propagatePositionBackwards (G := M) dbg e t js as_ m.
Proof.
  intros. unfold gripper_propagatePositionBackwards. destruct (cassert _ _); cbn [bind]; [|reflexivity..].
  destruct (cassert _ _); cbn [bind]; [|reflexivity..]. destruct (vget js 0) as [k1| | |]; cbn [bind]; [|reflexivity..].
  destruct (vget as_ 0) as [k0| | |]; cbn [bind]; [|reflexivity..].
  cbv zeta. rewrite inverse_same, rad_same.
  destruct (inverseGapStates _ _) as [[[MR d1] d2] d3]. destruct (sim_clock _ _ _) as [[ini start] stamp].
  rewrite simcal_same. reflexivity.
Qed.
End Domain.

(** Not vacuous: a gap joint reported further open than the mechanism allows asks for the arcsine of 2; without the
    clamping the answer would be up to [f]. *)
Definition exd_grip : gripper B64 :=
  mkGripper "g" ["a"%string] ["j"%string] "j" (nofZ 1) (nofZ 1) false false [] (nofZ 1) (nofZ 1) (nofZ 0) (nofZ 0) (nofZ 0) (nofZ 0) (nofZ 0)
    (nofZ 1) (nofZ 1) (nofZ 1) false 0 (new_calsim (nofZ 0) (nofZ 0) (nofZ 0) (nofZ 0) false false).
Lemma two_out : in_unit (nofZ 2) = false.
Proof.
  rewrite in_unit_ord, b64_ord_finite by reflexivity.
  assert (E : B2R (nofZ 2 : B64) = 2) by (cbv; lra). rewrite E.
  rewrite (Rle_bool_false 2 1) by lra. apply andb_false_r.
Qed.
Example C93_ex : forall (M : Trig B64) f g h, nsin (nofZ 0) = nofZ 0 :> B64 -> f (nofZ 2) <> nasin (nofZ 2) :> B64 ->
  let gap := nofZ 4 : B64 in   (* the position of the gap joint; half of it is the gap size *)
  let wanted := nadd (ndiv (nsub (ndiv gap ntwo) (gr_t0 exd_grip)) (gr_r exd_grip)) (nsin (gr_theta0 exd_grip)) in
  wanted = nofZ 2 /\ in_unit wanted = false /\ nasin (Trig := replaced M f g h) wanted <> nasin (Trig := M) wanted /\
  inverseGapStates (G := replaced M f g h) exd_grip (ndiv gap ntwo) = inverseGapStates (G := M) exd_grip (ndiv gap ntwo).
Proof.
  intros M f g h S0 F gap wanted.
  assert (W : wanted = nofZ 2).
  { unfold wanted, exd_grip. cbn [gr_theta0 gr_t0 gr_r]. rewrite S0. apply B2SF_inj. vm_compute. reflexivity. }
  pose proof two_out as U.
  split; [exact W|]. rewrite W. split; [exact U|]. split.
  - cbn [nasin replaced]. rewrite U. exact F.
  - apply inverse_same.
Qed.
