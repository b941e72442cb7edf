(** Geometrically convergent sequences and the trapezoidal filters of the belt transmission. *)
From Coq Require Import Reals Lra Lia Psatz.
From Verif.Spec Require Import BeltSpec.
Local Open Scope R_scope.

Lemma geo_const l : geometric (fun _ => l) l.
Proof.
  exists 0, 0. split; [lra|]. intros n. rewrite Rminus_eq_0, Rabs_R0. lra.
Qed.
Lemma geo_ext u v l : (forall n, u n = v n) -> geometric u l -> geometric v l.
Proof. intros E [C [q [Q H]]]. exists C, q. split; auto. intros n. rewrite <- E. auto. Qed.

Lemma geo_weaken u l C q q' : 0 <= q <= q' -> (forall n, Rabs (u n - l) <= C * q ^ n) -> forall n, Rabs (u n - l) <= C * q' ^ n.
Proof.
  intros Q H n. eapply Rle_trans; [apply H|].
  assert (0 <= C). { specialize (H 0%nat). simpl in H. rewrite Rmult_1_r in H. eapply Rle_trans; [apply Rabs_pos|exact H]. }
  apply Rmult_le_compat_l; auto. apply pow_incr. lra.
Qed.

Lemma geo_add u v l k : geometric u l -> geometric v k -> geometric (fun n => u n + v n) (l + k).
Proof.
  intros [C [q [Q H]]] [D [r [P K]]]. exists (C + D), (Rmax q r).
  pose proof (Rmax_l q r). pose proof (Rmax_r q r).
  split; [split; [lra|apply Rmax_lub_lt; lra]|]. intros n.
  pose proof (geo_weaken u l C q (Rmax q r) ltac:(lra) H n) as HH1.
  pose proof (geo_weaken v k D r (Rmax q r) ltac:(lra) K n) as KK1.
  replace (u n + v n - (l + k)) with ((u n - l) + (v n - k)) by ring.
  eapply Rle_trans; [apply Rabs_triang|]. lra.
Qed.
Lemma geo_scal u l c : geometric u l -> geometric (fun n => c * u n) (c * l).
Proof.
  intros [C [q [Q H]]]. exists (Rabs c * C), q. split; auto. intros n.
  replace (c * u n - c * l) with (c * (u n - l)) by ring. rewrite Rabs_mult, Rmult_assoc.
  apply Rmult_le_compat_l; [apply Rabs_pos|apply H].
Qed.
Lemma geo_eq u l l' : l = l' -> geometric u l -> geometric u l'.
Proof. intros ->. auto. Qed.

Lemma geo_shift u l : geometric (fun n => u (S n)) l -> geometric u l.
Proof.
  intros [C [q [Q H]]]. exists (Rmax C (Rabs (u 0%nat - l)) / Rmax q (1/2)), (Rmax q (1/2)).
  pose proof (Rmax_l q (1/2)). pose proof (Rmax_r q (1/2)).
  assert (Rmax q (1/2) < 1) by (apply Rmax_lub_lt; lra). split; [lra|].
  pose proof (geo_weaken (fun n => u (S n)) l C q (Rmax q (1/2)) ltac:(lra) H) as H'.
  set (r := Rmax q (1/2)) in *. set (B := Rmax C (Rabs (u 0%nat - l))).
  assert (C <= B) by apply Rmax_l. assert (Rabs (u 0%nat - l) <= B) by apply Rmax_r.
  assert (0 <= B) by (eapply Rle_trans; [apply Rabs_pos|eassumption]).
  intros [|n].
  - simpl. rewrite Rmult_1_r. eapply Rle_trans; [eassumption|].
    apply Rmult_le_reg_r with r; [lra|]. unfold Rdiv. rewrite Rmult_assoc, Rinv_l by lra. nra.
  - simpl. replace (B / r * (r * r ^ n)) with (B * r ^ n) by (field; lra).
    eapply Rle_trans; [apply H'|]. apply Rmult_le_compat_r; auto. apply pow_le. lra.
Qed.

(** u(n+1) = r u(n) + w(n) with |r| < 1 and w -> 0 geometrically *)
Lemma geo_rec u w r : Rabs r < 1 -> geometric w 0 -> (forall n, u (S n) = r * u n + w n) -> geometric u 0.
Proof.
  intros Hr [C [s [Q H]]] E.
  set (q := Rmax s ((1 + Rabs r) / 2)).
  assert (s <= q) by apply Rmax_l. assert ((1 + Rabs r) / 2 <= q) by apply Rmax_r.
  assert (q < 1) by (apply Rmax_lub_lt; lra). pose proof (Rabs_pos r).
  pose proof (geo_weaken w 0 C s q ltac:(lra) H) as H'. clearbody q.
  assert (HC : 0 <= C). { specialize (H 0%nat). simpl in H. rewrite Rmult_1_r in H. eapply Rle_trans; [apply Rabs_pos|exact H]. }
  set (D := Rmax (Rabs (u 0%nat)) (C / (q - Rabs r))).
  assert (D1 : Rabs (u 0%nat) <= D) by apply Rmax_l. assert (D2 : C / (q - Rabs r) <= D) by apply Rmax_r. clearbody D.
  assert (D3 : C <= D * (q - Rabs r)).
  { apply Rmult_le_compat_r with (r := q - Rabs r) in D2; [|lra]. unfold Rdiv in D2. rewrite Rmult_assoc, Rinv_l in D2 by lra. lra. }
  exists D, q. split; [lra|]. induction n as [|n IH].
  - simpl. rewrite Rminus_0_r. lra.
  - rewrite Rminus_0_r in *. rewrite E. eapply Rle_trans; [apply Rabs_triang|]. rewrite Rabs_mult.
    specialize (H' n). rewrite Rminus_0_r in H'. simpl.
    assert (P : 0 <= q ^ n) by (apply pow_le; lra). set (x := q ^ n) in *.
    assert (Rabs r * Rabs (u n) <= Rabs r * (D * x)) by (apply Rmult_le_compat_l; lra).
    assert (C * x <= D * (q - Rabs r) * x) by (apply Rmult_le_compat_r; lra).
    lra.
Qed.

(** A critically damped second order system integrated with the trapezoidal rule. *)
Lemma rho_bound l h : 0 < l -> 0 < h -> l * h <= 1 -> Rabs ((1 - l * h) / (1 + l * h)) < 1.
Proof.
  intros Hl Hh H. assert (0 < l * h) by nra.
  assert (E : (1 - l * h) / (1 + l * h) * (1 + l * h) = 1 - l * h) by (field; lra).
  apply Rabs_def1; nra.
Qed.

Lemma geo_next u l : geometric u l -> geometric (fun n => u (S n)) l.
Proof. intros [C [q [Q H]]]. exists (C * q), q. split; auto. intros n. specialize (H (S n)). simpl in H. rewrite Rmult_assoc. exact H. Qed.

(** driven towards an equilibrium at a distance [d n] from 0 which vanishes geometrically *)
Lemma trapezoid_driven (e v a d : nat -> R) l h : 0 < l -> 0 < h -> l * h <= 1 -> geometric d 0 ->
  (forall n, v (S n) = v n + h * (a (S n) + a n)) ->
  (forall n, e (S n) = e n + h * (v (S n) + v n)) ->
  (forall n, a (S n) = - (l * l) * (e (S n) - d (S n)) - 2 * l * v (S n)) ->
  geometric e 0 /\ geometric v 0.
Proof.
  intros Hl Hh H Hd Hv He Ha. assert (P : 0 < l * h) by nra.
  set (rho := (1 - l * h) / (1 + l * h)).
  assert (Hrho : rho * (1 + l * h) = 1 - l * h) by (unfold rho; field; lra).
  assert (Z : geometric (fun n => v (S n) + l * e (S n)) 0).
  { apply (geo_rec _ (fun n => l * (l * h) / (1 + l * h) * (d (S (S n)) + d (S n))) rho); [apply rho_bound; auto| |].
    { eapply geo_eq; [|apply geo_scal, geo_add; [exact (geo_next _ _ (geo_next _ _ Hd))|exact (geo_next _ _ Hd)]]. ring. }
    intros n. apply Rmult_eq_reg_r with (1 + l * h); [|lra].
    transitivity ((1 - l * h) * (v (S n) + l * e (S n)) + l * (l * h) * (d (S (S n)) + d (S n))); [|rewrite <- Hrho; field; lra].
    pose proof (Hv (S n)). pose proof (He (S n)). pose proof (Ha n). pose proof (Ha (S n)).
    set (v0 := v (S n)) in *. set (v1 := v (S (S n))) in *. set (e0 := e (S n)) in *. set (e1 := e (S (S n))) in *.
    set (a0 := a (S n)) in *. set (a1 := a (S (S n))) in *. set (d0 := d (S n)) in *. set (d1 := d (S (S n))) in *.
    assert (E1 : v1 - v0 = h * (- l * (v1 + l * e1) - l * v1 + (- l * (v0 + l * e0) - l * v0)) + h * (l * l) * (d1 + d0)) by (clear Hrho; subst a0 a1; clearbody v0 v1 e0 e1 d0 d1; nra).
    assert (E2 : l * (e1 - e0) = l * h * (v1 + v0)) by (clear Hrho; nra). lra. }
  assert (E : geometric (fun n => e (S n)) 0).
  { apply (geo_rec _ (fun n => h / (1 + l * h) * ((v (S (S n)) + l * e (S (S n))) + (v (S n) + l * e (S n)))) rho); [apply rho_bound; auto| |].
    - eapply geo_eq; [|apply geo_scal, geo_add; [exact (geo_next _ _ Z)|exact Z]]. ring.
    - intros n. apply Rmult_eq_reg_r with (1 + l * h); [|lra].
      transitivity ((1 - l * h) * e (S n) + h * ((v (S (S n)) + l * e (S (S n))) + (v (S n) + l * e (S n)))).
      + rewrite (He (S n)) at 1. pose proof (He (S n)). nra.
      + rewrite <- Hrho. field. lra. }
  split; apply geo_shift; [exact E|].
  eapply geo_ext; [|eapply geo_eq; [|apply geo_add; [exact Z|apply (geo_scal _ _ (- l) E)]]]; [intros n; simpl; ring|ring].
Qed.
Lemma trapezoid (e v a : nat -> R) l h : 0 < l -> 0 < h -> l * h <= 1 ->
  (forall n, v (S n) = v n + h * (a (S n) + a n)) ->
  (forall n, e (S n) = e n + h * (v (S n) + v n)) ->
  (forall n, a (S n) = - (l * l) * e (S n) - 2 * l * v (S n)) ->
  geometric e 0 /\ geometric v 0.
Proof.
  intros Hl Hh H Hv He Ha. apply (trapezoid_driven e v a (fun _ => 0) l h); auto; [apply geo_const|].
  intros n. rewrite Ha. ring.
Qed.
