(** C30-C35: safety limits of a joint (JointState::enforceLimits, getLimits). *)
From Coq Require Import List Bool Reals ZArith Lra Lia String.
From Flocq Require Import Core.Core IEEE754.BinarySingleNaN.
From Verif.Model Require Import Base Num Joint.
From Verif.Spec Require Import JointSpec.
From Verif.Proofs Require Import NumFacts JointProofs.
Import ListNotations.
Local Open Scope R_scope.

Lemma opp_b64 (x : B64) r : b64_ord x = Some r -> b64_ord (Bopp x) = Some (- r).
Proof. intros A. rewrite b64_opp_ord, A. reflexivity. Qed.

(** C30: for every IEEE position and velocity (NaN and infinities included), every limit parameter and every command
    that is not NaN, the enforced effort is within the effort limit. *)
Theorem C30_effort_within_limit : forall (j j' : jointstate B64) u sf lm,
  has_safety j u sf lm ->
  fle f0 (lim_effort lm) ->
  not_nan (commanded_effort j) ->
  enforceLimits j = Ok j' ->
  fle (Bopp (lim_effort lm)) (commanded_effort j') /\ fle (commanded_effort j') (lim_effort lm) /\ same_but_command j j'.
Proof.
  intros j j' u sf lm HS Pos Nn E.
  destruct (fle_inv _ _ Pos) as [z [r [Oz [Or L]]]]. injection Oz as <-.
  apply not_nan_ord in Nn. destruct Nn as [c Oc].
  pose proof (getLimits_eq j u sf lm HS) as G.
  destruct (enforce_shape _ _ _ _ G E) as [C Sm].
  destruct (clamp_low (O := ord_B64) (lim_effort lm) (lowexpr j u sf lm) r Or) as [a [Ea [Ba _]]].
  destruct (clamp_high (O := ord_B64) (lim_effort lm) (highexpr j u sf lm) r Or) as [b [Eb [Bb _]]].
  destruct (enforce_cmd_bounds (O := ord_B64) _ _ _ c a b Oc Ea Eb) as [q [Eq [Q1 [Q2 [Q3 Q4]]]]].
  rewrite <- C in Eq. rewrite Rabs_right in * by lra.
  split; [|split; auto].
  - rewrite (fle_ord _ _ (- r) q); [|apply opp_b64; exact Or|exact Eq].
    destruct (Rle_or_lt a b); [specialize (Q2 H)|specialize (Q4 H)]; lra.
  - rewrite (fle_ord _ _ q r); [|exact Eq|exact Or]. lra.
Qed.

(** The same without assuming the sign of the limit, as a bound on absolute values. *)
Theorem C30_effort_within_limit_abs : forall (j j' : jointstate B64) u sf lm,
  has_safety j u sf lm ->
  not_nan (lim_effort lm) ->
  not_nan (commanded_effort j) ->
  enforceLimits j = Ok j' ->
  fle (Babs (commanded_effort j')) (Babs (lim_effort lm)).
Proof.
  intros j j' u sf lm HS Nl Nn E.
  apply not_nan_ord in Nl. destruct Nl as [r Or].
  apply not_nan_ord in Nn. destruct Nn as [c Oc].
  pose proof (getLimits_eq j u sf lm HS) as G.
  destruct (enforce_shape _ _ _ _ G E) as [C Sm].
  destruct (clamp_low (O := ord_B64) (lim_effort lm) (lowexpr j u sf lm) r Or) as [a [Ea [Ba _]]].
  destruct (clamp_high (O := ord_B64) (lim_effort lm) (highexpr j u sf lm) r Or) as [b [Eb [Bb _]]].
  destruct (enforce_cmd_bounds (O := ord_B64) _ _ _ c a b Oc Ea Eb) as [q [Eq [Q1 [Q2 [Q3 Q4]]]]].
  rewrite <- C in Eq. simpl in Eq.
  rewrite (fle_ord _ _ (Rabs q) (Rabs r)); [|rewrite b64_abs_ord, Eq; reflexivity|rewrite b64_abs_ord, Or; reflexivity].
  apply Rabs_le. destruct (Rle_or_lt a b); [specialize (Q2 H)|specialize (Q4 H)]; lra.
Qed.

(** C31: a NaN command is not stopped by the safety code. *)
Theorem C31_nan_command_passes : forall (j j' : jointstate B64),
  is_nan (commanded_effort j) = true -> enforceLimits j = Ok j' -> is_nan (commanded_effort j') = true.
Proof.
  intros j j' Hn E. unfold enforceLimits in E. destruct (getLimits j) as [[lo hi]| | |]; try discriminate.
  simpl in E. injection E as <-. simpl. unfold nmin, nmax.
  destruct (commanded_effort j); try discriminate. simpl.
  replace (Bltb B754_nan lo) with false by (destruct lo; reflexivity).
  replace (Bltb hi B754_nan) with false by (destruct hi as [| | |]; reflexivity). reflexivity.
Qed.

(** C32: the interval of admissible efforts is never empty, for every IEEE position and velocity, as long as the limits
    are sane: velocity limit non-negative, effort limit not NaN, finite non-negative gains, soft limits in order. *)
Theorem C32_interval_nonempty : forall (j : jointstate B64) u sf lm lo hi,
  has_safety j u sf lm ->
  not_nan (lim_effort lm) -> fle f0 (lim_velocity lm) ->
  finite (k_position sf) -> fle f0 (k_position sf) ->
  finite (k_velocity sf) -> fle f0 (k_velocity sf) ->
  fle (soft_lower sf) (soft_upper sf) ->
  getLimits j = Ok (lo, hi) ->
  fle lo hi.
Proof.
  intros j u sf lm lo hi HS Ne Pv Fp Pp Fv Pkv SL G.
  rewrite (getLimits_eq j u sf lm HS) in G. injection G as <- <-.
  apply not_nan_ord in Ne. destruct Ne as [r Or].
  destruct (fle_inv _ _ Pv) as [z [rv [Oz [Ov Lv]]]]. injection Oz as <-.
  destruct (b64_vel_bounds_ordered j u sf lm rv Ov) as [va [vb [Va [Vb Vab]]]]; [auto|auto|].
  destruct (clamp_low (O := ord_B64) (lim_effort lm) (lowexpr j u sf lm) r Or) as [a [Ea [Ba _]]].
  destruct (clamp_high (O := ord_B64) (lim_effort lm) (highexpr j u sf lm) r Or) as [b [Eb [Bb _]]].
  rewrite (fle_ord _ _ a b); [|exact Ea|exact Eb].
  eapply b64_bounds_ordered with (k := k_velocity sf); [exact Fv|exact Pkv|exact Or| |exact Ea|exact Eb].
  rewrite (fle_ord _ _ va vb); auto.
Qed.

(** C33 in binary64: at or beyond the upper soft limit and not moving back, no positive effort gets through;
    symmetrically at the lower one.  Positions and velocities may be infinite. *)
Theorem C33_no_outward_effort : forall (j j' : jointstate B64) u sf lm,
  has_safety j u sf lm -> position_watched j u ->
  fle f0 (lim_effort lm) -> fle f0 (lim_velocity lm) -> finite (lim_velocity lm) ->
  finite (k_position sf) -> flt f0 (k_position sf) ->
  finite (k_velocity sf) -> flt f0 (k_velocity sf) ->
  finite (soft_lower sf) -> finite (soft_upper sf) -> fle (soft_lower sf) (soft_upper sf) ->
  not_nan (commanded_effort j) ->
  enforceLimits j = Ok j' ->
  (fle (soft_upper sf) (position j) -> fle f0 (velocity j) -> fle (commanded_effort j') f0) /\
  (fle (position j) (soft_lower sf) -> fle (velocity j) f0 -> fle f0 (commanded_effort j')).
Proof.
  intros j j' u sf lm HS W Pe Pv Fvl Fp Pp Fv Pkv Fsl Fsu SL Nn E.
  destruct (fle_inv _ _ Pe) as [z [r [Oz [Or Lr]]]]. injection Oz as <-.
  destruct (fle_inv _ _ Pv) as [z [rv [Oz [Ov Lv]]]]. injection Oz as <-.
  assert (Kp : 0 < B2R (k_position sf)).
  { unfold flt in Pp. rewrite Bltb_correct in Pp; auto. simpl in Pp. destruct (Rlt_bool_spec 0 (B2R (k_position sf))); auto; discriminate. }
  assert (Kv : 0 < B2R (k_velocity sf)).
  { unfold flt in Pkv. rewrite Bltb_correct in Pkv; auto. simpl in Pkv. destruct (Rlt_bool_spec 0 (B2R (k_velocity sf))); auto; discriminate. }
  assert (Le : fle f0 (k_position sf)) by (rewrite (fle_ord _ _ 0 (B2R (k_position sf))); [lra|reflexivity|apply b64_ord_finite; auto]).
  assert (Le' : fle f0 (k_velocity sf)) by (rewrite (fle_ord _ _ 0 (B2R (k_velocity sf))); [lra|reflexivity|apply b64_ord_finite; auto]).
  apply not_nan_ord in Nn. destruct Nn as [c Oc].
  pose proof (getLimits_eq j u sf lm HS) as G.
  destruct (enforce_shape _ _ _ _ G E) as [C Sm].
  assert (Ne : not_nan (lim_effort lm)) by (apply not_nan_ord; eauto).
  pose proof (C32_interval_nonempty j u sf lm _ _ HS Ne Pv Fp Le Fv Le' SL G) as NE.
  destruct (clamp_low (O := ord_B64) (lim_effort lm) (lowexpr j u sf lm) r Or) as [a [Ea [Ba [La [Da _]]]]].
  destruct (clamp_high (O := ord_B64) (lim_effort lm) (highexpr j u sf lm) r Or) as [b [Eb [Bb [Lb _]]]].
  rewrite (fle_ord _ _ a b) in NE; [|exact Ea|exact Eb].
  destruct (enforce_cmd_bounds (O := ord_B64) _ _ _ c a b Oc Ea Eb) as [q [Eq [Q1 [Q2 [Q3 Q4]]]]].
  rewrite <- C in Eq. specialize (Q2 NE).
  assert (VB : vel_bounds j u sf lm =
    (nmin (lim_velocity lm) (nmax (nopp (lim_velocity lm)) (nmul (nopp (k_position sf)) (nsub (position j) (soft_lower sf)))),
     nmax (nopp (lim_velocity lm)) (nmin (lim_velocity lm) (nmul (nopp (k_position sf)) (nsub (position j) (soft_upper sf)))))).
  { unfold vel_bounds. destruct W as [W1 [W2|W2]]; rewrite W1, W2; reflexivity. }
  rewrite Rabs_right in * by lra.
  split; intros P V.
  - destruct (fle_inv _ _ P) as [su [p [Osu [Op Lp]]]]. rewrite b64_ord_finite in Osu by auto. injection Osu as <-.
    destruct (fle_inv _ _ V) as [z [v [Oz [Ovel Lvel]]]]. injection Oz as <-.
    destruct (b64_minus_finite _ _ _ Op Fsu) as [d [Od [Sd _]]]. specialize (Sd Lp).
    destruct (b64_neg_mult_sign _ _ _ Fp Kp Od) as [e [Oe [Se _]]]. specialize (Se Sd).
    destruct (clamp_high (O := ord_B64) (lim_velocity lm) (nmul (nopp (k_position sf)) (nsub (position j) (soft_upper sf))) rv Ov) as [vh [Evh [Bvh [Lvh _]]]].
    specialize (Lvh e). simpl in Lvh, Oe. specialize (Lvh Oe).
    assert (Hvh : vh <= 0) by (revert Lvh; apply Rmax_case_strong; intros; lra).
    assert (Ovh : b64_ord (snd (vel_bounds j u sf lm)) = Some vh) by (rewrite VB; exact Evh).
    assert (Frv : - bpow radix2 1024 < rv < bpow radix2 1024)
      by (pose proof (b64_bound (lim_velocity lm)); rewrite b64_ord_finite in Ov by auto; assert (rv = B2R (lim_velocity lm)) by congruence; lra).
    assert (Fvh : is_finite (snd (vel_bounds j u sf lm)) = true) by (apply (b64_ord_inside _ _ Ovh); rewrite Rabs_right in Bvh by lra; lra).
    assert (Hvh' : B2R (snd (vel_bounds j u sf lm)) = vh) by (rewrite b64_ord_finite in Ovh by auto; congruence).
    destruct (b64_minus_finite _ _ _ Ovel Fvh) as [d2 [Od2 [Sd2 _]]].
    assert (0 <= d2) by (apply Sd2; rewrite Hvh'; lra).
    destruct (b64_neg_mult_sign _ _ _ Fv Kv Od2) as [e2 [Oe2 [Se2 _]]]. specialize (Se2 H).
    specialize (Lb e2 Oe2).
    rewrite (fle_ord _ _ q 0); [|exact Eq|reflexivity].
    revert Lb. apply Rmax_case_strong; intros; lra.
  - destruct (fle_inv _ _ P) as [p [sl [Op [Osl Lp]]]]. rewrite b64_ord_finite in Osl by auto. injection Osl as <-.
    destruct (fle_inv _ _ V) as [v [z [Ovel [Oz Lvel]]]]. injection Oz as <-.
    destruct (b64_minus_finite _ _ _ Op Fsl) as [d [Od [_ Sd]]]. specialize (Sd Lp).
    destruct (b64_neg_mult_sign _ _ _ Fp Kp Od) as [e [Oe [_ Se]]]. specialize (Se Sd).
    destruct (clamp_low (O := ord_B64) (lim_velocity lm) (nmul (nopp (k_position sf)) (nsub (position j) (soft_lower sf))) rv Ov) as [vl [Evl [Bvl [Lvl _]]]].
    specialize (Lvl e). simpl in Lvl, Oe. specialize (Lvl Oe).
    assert (Hvl : 0 <= vl) by (revert Lvl; apply Rmin_case_strong; intros; lra).
    assert (Ovl : b64_ord (fst (vel_bounds j u sf lm)) = Some vl) by (rewrite VB; exact Evl).
    assert (Frv : - bpow radix2 1024 < rv < bpow radix2 1024)
      by (pose proof (b64_bound (lim_velocity lm)); rewrite b64_ord_finite in Ov by auto; assert (rv = B2R (lim_velocity lm)) by congruence; lra).
    assert (Fvl' : is_finite (fst (vel_bounds j u sf lm)) = true) by (apply (b64_ord_inside _ _ Ovl); rewrite Rabs_right in Bvl by lra; lra).
    assert (Hvl' : B2R (fst (vel_bounds j u sf lm)) = vl) by (rewrite b64_ord_finite in Ovl by auto; congruence).
    destruct (b64_minus_finite _ _ _ Ovel Fvl') as [d2 [Od2 [_ Sd2]]].
    assert (d2 <= 0) by (apply Sd2; rewrite Hvl'; lra).
    destruct (b64_neg_mult_sign _ _ _ Fv Kv Od2) as [e2 [Oe2 [_ Se2]]]. specialize (Se2 H).
    specialize (La e2 Oe2).
    rewrite (fle_ord _ _ 0 q); [|reflexivity|exact Eq].
    revert La. apply Rmin_case_strong; intros; lra.
Qed.

(** ** the clamps over the reals *)
Lemma nmaxR (a b : R) : nmax a b = Rmax a b.
Proof. unfold nmax. simpl. destruct (Rlt_bool_spec a b); [rewrite Rmax_right|rewrite Rmax_left]; lra. Qed.
Lemma nminR (a b : R) : nmin a b = Rmin a b.
Proof. unfold nmin. simpl. destruct (Rlt_bool_spec b a); [rewrite Rmin_right|rewrite Rmin_left]; lra. Qed.
Lemma clampR_order m e1 e2 : 0 <= m -> e1 <= e2 -> Rmin m (Rmax (- m) e1) <= Rmax (- m) (Rmin m e2).
Proof.
  intros. apply Rmin_case_strong; apply Rmax_case_strong; intros; apply Rmax_case_strong; apply Rmin_case_strong; intros; lra.
Qed.
Lemma clampR_high m e1 e2 : e1 <= e2 -> Rmax (- m) (Rmin m e1) <= Rmax (- m) e2.
Proof. intros. apply Rle_max_compat_l. apply Rle_trans with e1; auto. apply Rmin_r. Qed.
Lemma clampR_low m e1 e2 : e1 <= e2 -> Rmin m e1 <= Rmin m (Rmax (- m) e2).
Proof. intros. apply Rle_min_compat_l. apply Rle_trans with e2; auto. apply Rmax_r. Qed.
Lemma clampR_cmd c lo hi : lo <= hi -> lo <= Rmin (Rmax c lo) hi <= hi.
Proof. intros. apply Rmin_case_strong; intros; split; try lra. apply Rmax_r. Qed.
Lemma clampR_range m e : 0 <= m -> - m <= Rmax (- m) (Rmin m e) <= m /\ - m <= Rmin m (Rmax (- m) e) <= m.
Proof.
  intros. split; [apply (Rmax_case_strong (- m)); apply Rmin_case_strong|apply (Rmin_case_strong m); apply Rmax_case_strong]; intros; lra.
Qed.

(** C33 in real arithmetic: the bound on the effort falls off linearly with the velocity, and the velocity at which it
    becomes zero falls off linearly with the distance to the soft limit (never beyond the velocity limit). *)
Theorem C33_soft_limit_bound : forall (j j' : jointstate R) u sf lm,
  has_safety j u sf lm -> position_watched j u ->
  0 <= lim_effort lm -> 0 <= lim_velocity lm -> 0 <= k_position sf -> 0 <= k_velocity sf ->
  soft_lower sf <= soft_upper sf ->
  enforceLimits j = Ok j' ->
  let vmax := Rmax (- lim_velocity lm) (k_position sf * (soft_upper sf - position j)) in
  let vmin := Rmin (lim_velocity lm) (k_position sf * (soft_lower sf - position j)) in
  commanded_effort j' <= Rmax (- lim_effort lm) (k_velocity sf * (vmax - velocity j)) /\
  Rmin (lim_effort lm) (k_velocity sf * (vmin - velocity j)) <= commanded_effort j'.
Proof.
  intros j j' u sf lm HS W Pe Pv Pp Pkv SL E vmax vmin.
  pose proof (getLimits_eq j u sf lm HS) as G.
  destruct (enforce_shape _ _ _ _ G E) as [C _].
  unfold lowexpr, highexpr in C.
  set (vl := Rmin (lim_velocity lm) (Rmax (- lim_velocity lm) (- k_position sf * (position j - soft_lower sf)))).
  set (vh := Rmax (- lim_velocity lm) (Rmin (lim_velocity lm) (- k_position sf * (position j - soft_upper sf)))).
  assert (VB : vel_bounds j u sf lm = (vl, vh)).
  { unfold vel_bounds. destruct W as [W1 [W2|W2]]; rewrite W1, W2; cbn [andb orb jtype_eqb]; rewrite !nminR, !nmaxR; reflexivity. }
  rewrite VB in C. cbn [fst snd] in C. rewrite !nminR, !nmaxR in C. simpl in C.
  assert (V : vl <= vh) by (apply clampR_order; auto; clear - Pp SL; nra).
  assert (Hh : vh <= vmax) by (apply clampR_high; clear; lra).
  assert (Hl : vmin <= vl) by (apply clampR_low; clear; lra).
  clearbody vl vh vmax vmin. clear - Pe Pkv V Hh Hl C.
  assert (AB : - k_velocity sf * (velocity j - vl) <= - k_velocity sf * (velocity j - vh)) by nra.
  assert (H1 : - k_velocity sf * (velocity j - vh) <= k_velocity sf * (vmax - velocity j)) by nra.
  assert (H2 : k_velocity sf * (vmin - velocity j) <= - k_velocity sf * (velocity j - vl)) by nra.
  destruct (clampR_cmd (commanded_effort j) _ _ (clampR_order (lim_effort lm) _ _ Pe AB)) as [A B].
  rewrite C. split.
  - eapply Rle_trans; [exact B|]. apply clampR_high. exact H1.
  - eapply Rle_trans; [|exact A]. apply clampR_low. exact H2.
Qed.

(** C34: a command inside the interval returned by getLimits passes bit for bit. *)
Theorem C34_transparent : forall (j j' : jointstate B64) lo hi,
  getLimits j = Ok (lo, hi) -> fle lo (commanded_effort j) -> fle (commanded_effort j) hi ->
  enforceLimits j = Ok j' -> commanded_effort j' = commanded_effort j.
Proof.
  intros j j' lo hi G A B E. destruct (enforce_shape _ _ _ _ G E) as [C _]. rewrite C.
  apply (within_unchanged (O := ord_B64)); auto.
Qed.

(** Enforcing twice is enforcing once. *)
Theorem C34_idempotent : forall (j j' j'' : jointstate B64) u sf lm,
  has_safety j u sf lm ->
  not_nan (lim_effort lm) -> fle f0 (lim_velocity lm) ->
  finite (k_position sf) -> fle f0 (k_position sf) ->
  finite (k_velocity sf) -> fle f0 (k_velocity sf) ->
  fle (soft_lower sf) (soft_upper sf) ->
  enforceLimits j = Ok j' -> enforceLimits j' = Ok j'' -> commanded_effort j'' = commanded_effort j'.
Proof.
  intros j j' j'' u sf lm HS Ne Pv Fp Pp Fv Pkv SL E1 E2.
  destruct (getLimits j) as [[lo hi]| | |] eqn:G; try (unfold enforceLimits in E1; rewrite G in E1; discriminate).
  pose proof (C32_interval_nonempty j u sf lm _ _ HS Ne Pv Fp Pp Fv Pkv SL G) as NE.
  destruct (enforce_shape _ _ _ _ G E1) as [C [S1 [S2 [S3 [S4 [S5 [S6 S7]]]]]]].
  assert (G' : getLimits j' = getLimits j).
  { unfold getLimits. rewrite S1, S2, S3, S6. reflexivity. }
  rewrite G in G'.
  destruct (enforce_shape _ _ _ _ G' E2) as [C' _].
  destruct (fle_inv _ _ NE) as [a [b [Oa [Ob L]]]].
  destruct (b64_ord (commanded_effort j)) as [c|] eqn:Oc.
  - destruct (enforce_cmd_bounds (O := ord_B64) _ _ _ c a b Oc Oa Ob) as [q [Eq [Q1 [Q2 [Q3 Q4]]]]].
    rewrite <- C in Eq. rewrite C'. apply (within_unchanged (O := ord_B64)).
    + change (fle lo (commanded_effort j')). rewrite (fle_ord _ _ a q); auto.
    + change (fle (commanded_effort j') hi). rewrite (fle_ord _ _ q b); auto.
  - assert (N : is_nan (commanded_effort j) = true) by (destruct (commanded_effort j); simpl in Oc; try discriminate; reflexivity).
    pose proof (C31_nan_command_passes j j' N E1) as N1. pose proof (C31_nan_command_passes j' j'' N1 E2) as N2.
    destruct (commanded_effort j'); try discriminate. destruct (commanded_effort j''); try discriminate. reflexivity.
Qed.

(** Well inside the envelope (far enough from the soft limits and slow enough) every command up to the effort limit passes. *)
Theorem C34_full_range_inside : forall (j j' : jointstate R) u sf lm,
  has_safety j u sf lm ->
  0 <= lim_effort lm -> 0 <= lim_velocity lm -> 0 <= k_velocity sf ->
  lim_effort lm <= k_velocity sf * (lim_velocity lm - Rabs (velocity j)) ->
  (position_watched j u -> lim_velocity lm <= k_position sf * (soft_upper sf - position j) /\
                           lim_velocity lm <= k_position sf * (position j - soft_lower sf)) ->
  Rabs (commanded_effort j) <= lim_effort lm ->
  enforceLimits j = Ok j' ->
  commanded_effort j' = commanded_effort j.
Proof.
  intros j j' u sf lm HS Pe Pv Pkv He Hw Hc E.
  pose proof (getLimits_eq j u sf lm HS) as G.
  assert (VB : vel_bounds j u sf lm = (- lim_velocity lm, lim_velocity lm)).
  { unfold vel_bounds.
    destruct (calibrated j && (jtype_eqb (uj_type u) JREVOLUTE || jtype_eqb (uj_type u) JPRISMATIC)) eqn:B; [|reflexivity].
    assert (P : position_watched j u).
    { apply andb_prop in B. destruct B as [E1 E2]. split; auto. apply orb_prop in E2.
      destruct E2; [left|right]; destruct (uj_type u); try discriminate; auto. }
    destruct (Hw P) as [H1 H2]. rewrite !nminR, !nmaxR. simpl. clear - Pv H1 H2.
    f_equal.
    - rewrite (Rmax_left (- lim_velocity lm)) by lra. apply Rmin_right. lra.
    - rewrite (Rmin_left (lim_velocity lm)) by lra. apply Rmax_right. lra. }
  unfold lowexpr, highexpr in G. rewrite VB in G. cbn [fst snd] in G.
  pose proof (Rabs_pos (velocity j)). pose proof (Rle_abs (velocity j)). pose proof (Rle_abs (- velocity j)) as A. rewrite Rabs_Ropp in A.
  assert (G' : getLimits j = Ok (- lim_effort lm, lim_effort lm)).
  { rewrite G. rewrite !nminR, !nmaxR. simpl. clear - Pe Pkv He H0 A. f_equal. f_equal.
    - rewrite (Rmax_left (- lim_effort lm)) by nra. apply Rmin_right. lra.
    - rewrite (Rmin_left (lim_effort lm)) by nra. apply Rmax_right. lra. }
  destruct (enforce_shape _ _ _ _ G' E) as [C _]. rewrite C.
  apply (within_unchanged (O := ord_R)); simpl; apply Rle_bool_true; apply Rabs_le_inv in Hc; lra.
Qed.

(** C35: without limits or without safety controller every finite command passes unchanged. *)
Theorem C35_no_limits_no_clamping : forall (j j' : jointstate B64) u,
  js_joint j = Some u -> (uj_safety u = None \/ uj_limits u = None) ->
  finite (commanded_effort j) -> enforceLimits j = Ok j' ->
  commanded_effort j' = commanded_effort j.
Proof.
  intros j j' u Hu Hn Fc E.
  assert (G : getLimits j = Ok (Bopp b64_max, b64_max)).
  { unfold getLimits. rewrite Hu. destruct (uj_safety u); [destruct Hn as [Hn|Hn]; [discriminate|rewrite Hn]|]; reflexivity. }
  assert (Fm : is_finite b64_max = true) by (vm_compute; reflexivity).
  assert (Em : B2R b64_max = bpow radix2 1024 - bpow radix2 (1024 - 53)).
  { unfold b64_max, B2R, F2R. cbn [Fnum Fexp SpecFloat.cond_Zopp].
    replace 9007199254740991%Z with (2 ^ 53 - 1)%Z by reflexivity. rewrite minus_IZR. change 2%Z with (radix_val radix2). rewrite IZR_Zpower by lia.
    replace (1024 - 53)%Z with 971%Z by lia. replace 1024%Z with (53 + 971)%Z by lia. rewrite bpow_plus. ring. }
  pose proof (bounded_le_emax_minus_prec 53 1024 eq_refl) as BB.
  assert (L : Rabs (B2R (commanded_effort j)) <= bpow radix2 1024 - bpow radix2 (1024 - 53)).
  { destruct (commanded_effort j) as [s|s| |s m e B]; try discriminate.
    - cbn [B2R]. rewrite Rabs_R0. assert (bpow radix2 (1024 - 53) <= bpow radix2 1024) by (apply bpow_le; lia). lra.
    - simpl B2R. rewrite <- F2R_Zabs. replace (Z.abs (SpecFloat.cond_Zopp s (Z.pos m))) with (Z.pos m) by (destruct s; reflexivity).
      apply BB. exact B. }
  apply Rabs_le_inv in L.
  destruct (enforce_shape _ _ _ _ G E) as [C _]. rewrite C.
  apply (within_unchanged (O := ord_B64)).
  - change (fle (Bopp b64_max) (commanded_effort j)).
    rewrite (fle_ord _ _ (- B2R b64_max) (B2R (commanded_effort j))); [lra| |].
    + apply opp_b64. apply b64_ord_finite; auto.
    + apply b64_ord_finite; auto.
  - change (fle (commanded_effort j) b64_max).
    rewrite (fle_ord _ _ (B2R (commanded_effort j)) (B2R b64_max)); [lra| |]; apply b64_ord_finite; auto.
Qed.

(** An uncalibrated joint has no position limits: its limits do not depend on the position ... *)
Theorem C35_uncalibrated_ignores_position : forall (j : jointstate B64) p,
  calibrated j = false -> getLimits (set_position p j) = getLimits j.
Proof. intros j p Hc. unfold getLimits. simpl. rewrite Hc. reflexivity. Qed.

(** ... but the velocity and effort limits apply. *)
Theorem C35_uncalibrated_velocity_limit : forall (j j' : jointstate R) u sf lm,
  has_safety j u sf lm -> calibrated j = false ->
  0 <= lim_effort lm -> 0 <= lim_velocity lm -> 0 <= k_velocity sf ->
  enforceLimits j = Ok j' ->
  Rabs (commanded_effort j') <= lim_effort lm /\
  commanded_effort j' <= Rmax (- lim_effort lm) (k_velocity sf * (lim_velocity lm - velocity j)) /\
  Rmin (lim_effort lm) (k_velocity sf * (- lim_velocity lm - velocity j)) <= commanded_effort j'.
Proof.
  intros j j' u sf lm HS Hc Pe Pv Pkv E.
  pose proof (getLimits_eq j u sf lm HS) as G.
  destruct (enforce_shape _ _ _ _ G E) as [C _].
  unfold lowexpr, highexpr in C.
  assert (VB : vel_bounds j u sf lm = (- lim_velocity lm, lim_velocity lm)) by (unfold vel_bounds; rewrite Hc; reflexivity).
  rewrite VB in C. cbn [fst snd] in C. rewrite !nminR, !nmaxR in C. simpl in C.
  clear - Pe Pkv Pv C.
  assert (AB : - k_velocity sf * (velocity j - - lim_velocity lm) <= - k_velocity sf * (velocity j - lim_velocity lm)) by nra.
  destruct (clampR_cmd (commanded_effort j) _ _ (clampR_order (lim_effort lm) _ _ Pe AB)) as [A B].
  destruct (clampR_range (lim_effort lm) (- k_velocity sf * (velocity j - - lim_velocity lm)) Pe) as [_ R1].
  destruct (clampR_range (lim_effort lm) (- k_velocity sf * (velocity j - lim_velocity lm)) Pe) as [R2 _].
  rewrite <- C in A, B.
  split; [apply Rabs_le; lra|]. split.
  - eapply Rle_trans; [exact B|]. apply clampR_high. lra.
  - eapply Rle_trans; [|exact A]. apply clampR_low. lra.
Qed.

(** ** Non-vacuity: a concrete joint in binary64 *)
Definition exJoint : ujoint B64 :=
  mkUjoint "shoulder" JREVOLUTE (Some (mkSafety (nofZ 100) (nofZ 10) (nofZ (-2)) (nofZ 2)))
    (Some (mkLimits (nofZ (-3)) (nofZ 3) (nofZ 30) (nofZ 4))) None.
Definition exJS (p v c : B64) : jointstate B64 :=
  mkJointState (Some exJoint) p v nzero (new_jstats nzero) c true nzero.
Definition okcmd (r : res (jointstate B64)) : option B64 := match r with Ok j => Some (commanded_effort j) | _ => None end.
Definition feq (x y : B64) : bool := SpecFloat.SFeqb (B2SF x) (B2SF y).

(** beyond the upper soft limit, moving outwards, commanded 100: the enforced effort is -30 *)
Example C30_ex : has_safety (exJS (nofZ 3) (nofZ 1) (nofZ 100)) exJoint (mkSafety (nofZ 100) (nofZ 10) (nofZ (-2)) (nofZ 2))
    (mkLimits (nofZ (-3)) (nofZ 3) (nofZ 30) (nofZ 4)) /\
  fle f0 (nofZ 30 : B64) /\ not_nan (nofZ 100 : B64) /\
  match okcmd (enforceLimits (exJS (nofZ 3) (nofZ 1) (nofZ 100))) with Some c => feq c (nofZ (-30)) | None => false end = true.
Proof. split; [repeat split|]. vm_compute. auto. Qed.
(** in the middle the command passes, with a NaN position the effort limit still holds *)
Example C30_ex_nan : 
  match okcmd (enforceLimits (exJS B754_nan (nofZ 1) (nofZ 100))) with Some c => feq c (nofZ 30) | None => false end = true /\
  match okcmd (enforceLimits (exJS (nofZ 0) (nofZ 0) (nofZ 20))) with Some c => feq c (nofZ 20) | None => false end = true.
Proof. vm_compute. auto. Qed.
Example C31_ex : match okcmd (enforceLimits (exJS (nofZ 0) (nofZ 0) B754_nan)) with Some c => is_nan c | None => false end = true.
Proof. vm_compute. reflexivity. Qed.
Example C32_C33_ex : 
  fle f0 (nofZ 4 : B64) /\ finite (nofZ 100 : B64) /\ flt f0 (nofZ 100 : B64) /\ finite (nofZ 10 : B64) /\ flt f0 (nofZ 10 : B64) /\
  fle (nofZ (-2)) (nofZ 2 : B64) /\ position_watched (exJS (nofZ 2) (nofZ 0) (nofZ 100)) exJoint /\
  match okcmd (enforceLimits (exJS (nofZ 2) (nofZ 0) (nofZ 100))) with Some c => feq c (nofZ 0) | None => false end = true.
Proof. repeat split; try (vm_compute; reflexivity). left. reflexivity. Qed.
(** C32 needs the soft limits in order: with soft_lower > soft_upper the interval is empty *)
Definition exBad : ujoint B64 :=
  mkUjoint "bad" JREVOLUTE (Some (mkSafety (nofZ 1) (nofZ 1) (nofZ 2) (nofZ (-2)))) (Some (mkLimits (nofZ (-3)) (nofZ 3) (nofZ 30) (nofZ 4))) None.
Example C32_ex_reversed :
  match getLimits (mkJointState (Some exBad) (nofZ 0) (nofZ 0) nzero (new_jstats nzero) nzero true nzero) with
  | Ok (lo, hi) => Bltb hi lo | _ => false end = true.
Proof. vm_compute. reflexivity. Qed.

Definition exJointR : ujoint R :=
  mkUjoint "shoulder" JREVOLUTE (Some (mkSafety 100 10 (-2) 2)) (Some (mkLimits (-3) 3 30 4)) None.
Definition exJSR (p v c : R) (cal : bool) : jointstate R := mkJointState (Some exJointR) p v 0 (new_jstats 0) c cal 0.
Example C34_ex : exists j', enforceLimits (exJSR 0 0 25 true) = Ok j' /\ commanded_effort j' = 25.
Proof.
  assert (E : exists j', enforceLimits (exJSR 0 0 25 true) = Ok j') by (eexists; reflexivity).
  destruct E as [j' E]. exists j'. split; [exact E|].
  apply (C34_full_range_inside (exJSR 0 0 25 true) j' exJointR (mkSafety 100 10 (-2) 2) (mkLimits (-3) 3 30 4)); auto; simpl;
    try (rewrite ?Rabs_R0; lra); try (repeat split; lra).
  rewrite Rabs_right; lra.
Qed.
Example C35_ex : exists j', enforceLimits (mkJointState (Some (mkUjoint "free" JCONTINUOUS None None None)) nzero nzero nzero (new_jstats nzero)
  (nofZ 1000000) true nzero : jointstate B64) = Ok j' /\ feq (commanded_effort j') (nofZ 1000000) = true.
Proof. eexists. split; [reflexivity|]. vm_compute. reflexivity. Qed.
