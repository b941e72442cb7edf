(** Error bounds for chains of binary64 operations. *)
From Coq Require Import Reals ZArith Bool Lra Lia.
From Flocq Require Import Core.Core IEEE754.BinarySingleNaN.
From Flocq Require Relative Plus_error.
From Verif.Model Require Import Base Num.
From Verif.Spec Require Import FloatSpec.
From Verif.Proofs Require Import NumFacts.
Local Open Scope R_scope.

Notation u := roundoff.
Lemma u_pos : 0 < u. Proof. apply bpow_gt_0. Qed.
Lemma u_small : u <= / 2000.
Proof.
  unfold roundoff. apply Rle_trans with (bpow radix2 (-11)); [apply bpow_le; lia|].
  change (bpow radix2 (-11)) with (/ IZR (Z.pow_pos 2 11)). apply Rinv_le; [lra|]. apply IZR_le. vm_compute. discriminate.
Qed.
Lemma half_u : / 2 * bpow radix2 (Z.opp 53 + 1) = u.
Proof. change (Z.opp 53) with (-53)%Z. unfold roundoff. rewrite bpow_plus. change (bpow radix2 1) with 2. lra. Qed.
Lemma half_eta : / 2 * bpow radix2 (-1074) = bpow radix2 (-1075).
Proof. replace (-1074)%Z with (-1075 + 1)%Z by lia. rewrite bpow_plus. change (bpow radix2 1) with 2. lra. Qed.

(** one rounding *)
Lemma rnd64_error x : Rabs (rnd64 x - x) <= u * Rabs x + bpow radix2 (-1075).
Proof.
  unfold rnd64. destruct (Relative.error_N_FLT radix2 (-1074) 53 ltac:(lia) (fun z => negb (Z.even z)) x) as (eps & eta & A & B & _ & E).
  change (round radix2 (SpecFloat.fexp 53 1024) (round_mode mode_NE) x) with
    (round radix2 (FLT_exp (-1074) 53) (Znearest (fun z => negb (Z.even z))) x).
  rewrite E. replace (x * (1 + eps) + eta - x) with (x * eps + eta) by ring.
  eapply Rle_trans; [apply Rabs_triang|]. rewrite Rabs_mult. rewrite half_u in A. rewrite half_eta in B.
  pose proof (Rabs_pos x). nra.
Qed.
Lemma rnd64_sum (x y : B64) : Rabs (rnd64 (B2R x + B2R y) - (B2R x + B2R y)) <= u * Rabs (B2R x + B2R y).
Proof.
  unfold rnd64.
  destruct (Plus_error.FLT_plus_error_N_ex radix2 (-1074) 53 (fun z => negb (Z.even z)) (B2R x) (B2R y)
    (generic_format_B2R 53 1024 x) (generic_format_B2R 53 1024 y)) as (eps & A & E).
  change (round radix2 (SpecFloat.fexp 53 1024) (round_mode mode_NE) (B2R x + B2R y)) with
    (round radix2 (FLT_exp (-1074) 53) (Znearest (fun z => negb (Z.even z))) (B2R x + B2R y)).
  rewrite E. replace ((B2R x + B2R y) * (1 + eps) - (B2R x + B2R y)) with ((B2R x + B2R y) * eps) by ring.
  rewrite Rabs_mult. rewrite Rmult_comm. apply Rmult_le_compat_r; [apply Rabs_pos|]. eapply Rle_trans; [exact A|].
  unfold Relative.u_ro. rewrite half_u. pose proof u_pos.
  apply Rmult_le_reg_r with (1 + u); [lra|]. unfold Rdiv. rewrite Rmult_assoc, Rinv_l by lra. nra.
Qed.
Lemma rnd64_inside x : Rabs x <= bpow radix2 1022 -> Rabs (rnd64 x) < bpow radix2 1024.
Proof.
  intros A. pose proof (rnd64_error x) as E. pose proof u_small. pose proof u_pos. pose proof (Rabs_pos x).
  assert (bpow radix2 (-1075) <= bpow radix2 1022) by (apply bpow_le; lia).
  assert (bpow radix2 1024 = 4 * bpow radix2 1022) by (replace 1024%Z with (2 + 1022)%Z by lia; rewrite bpow_plus; reflexivity).
  pose proof (bpow_gt_0 radix2 1022).
  assert (Rabs (rnd64 x) <= Rabs (rnd64 x - x) + Rabs x).
  { replace (rnd64 x) with ((rnd64 x - x) + x) at 1 by ring. apply Rabs_triang. }
  nra.
Qed.

(** the four operations, for finite operands with a result in range *)
Lemma div_val (x k : B64) : is_finite x = true -> B2R k <> 0 -> Rabs (B2R x / B2R k) <= bpow radix2 1022 ->
  is_finite (Bdiv mode_NE x k) = true /\ B2R (Bdiv mode_NE x k) = rnd64 (B2R x / B2R k).
Proof.
  intros F N A. pose proof (Bdiv_correct 53 1024 _ _ mode_NE x k N) as C. fold (rnd64 (B2R x / B2R k)) in C.
  rewrite Rlt_bool_true in C by (apply rnd64_inside; auto). destruct C as (E & G & _). rewrite G, E. auto.
Qed.
Lemma mul_val (x k : B64) : is_finite x = true -> is_finite k = true -> Rabs (B2R x * B2R k) <= bpow radix2 1022 ->
  is_finite (Bmult mode_NE x k) = true /\ B2R (Bmult mode_NE x k) = rnd64 (B2R x * B2R k).
Proof.
  intros F N A. pose proof (Bmult_correct 53 1024 _ _ mode_NE x k) as C. fold (rnd64 (B2R x * B2R k)) in C.
  rewrite Rlt_bool_true in C by (apply rnd64_inside; auto). destruct C as (E & G & _). rewrite G, E, F, N. auto.
Qed.
Lemma add_val (x k : B64) : is_finite x = true -> is_finite k = true -> Rabs (B2R x + B2R k) <= bpow radix2 1022 ->
  is_finite (Bplus mode_NE x k) = true /\ B2R (Bplus mode_NE x k) = rnd64 (B2R x + B2R k).
Proof.
  intros F N A. pose proof (Bplus_correct 53 1024 _ _ mode_NE x k F N) as C. fold (rnd64 (B2R x + B2R k)) in C.
  rewrite Rlt_bool_true in C by (apply rnd64_inside; auto). destruct C as (E & G & _). rewrite G, E. auto.
Qed.
Lemma sub_val (x k : B64) : is_finite x = true -> is_finite k = true -> Rabs (B2R x - B2R k) <= bpow radix2 1022 ->
  is_finite (Bminus mode_NE x k) = true /\ B2R (Bminus mode_NE x k) = rnd64 (B2R x - B2R k).
Proof.
  intros F N A. pose proof (Bminus_correct 53 1024 _ _ mode_NE x k F N) as C. fold (rnd64 (B2R x - B2R k)) in C.
  rewrite Rlt_bool_true in C by (apply rnd64_inside; auto). destruct C as (E & G & _). rewrite G, E. auto.
Qed.

(** doubling is exact *)
Lemma two_is : (ntwo : B64) = @B754_finite 53 1024 false 4503599627370496 (-51) eq_refl.
Proof. apply B2SF_inj. vm_compute. reflexivity. Qed.
Lemma two_val : B2R (ntwo : B64) = 2 /\ is_finite (ntwo : B64) = true.
Proof.
  rewrite two_is. split; [|reflexivity]. unfold B2R, F2R. cbn [Fnum Fexp cond_Zopp].
  replace (IZR (Z.pos 4503599627370496)) with (bpow radix2 52).
  - rewrite <- bpow_plus. change (52 + -51)%Z with 1%Z. reflexivity.
  - unfold bpow. f_equal.
Qed.
Lemma rnd64_double (x : B64) : rnd64 (2 * B2R x) = 2 * B2R x.
Proof.
  unfold rnd64. apply round_generic; [apply valid_rnd_round_mode|].
  change (SpecFloat.fexp 53 1024) with (FLT_exp (-1074) 53). rewrite Rmult_comm.
  apply generic_format_FLT. pose proof (generic_format_B2R 53 1024 x) as G. change (SpecFloat.fexp 53 1024) with (FLT_exp (-1074) 53) in G.
  apply FLT_format_generic in G; [|reflexivity]. destruct G as [f E P Q]. exists (Float radix2 (Fnum f) (Fexp f + 1)); simpl; auto; [|lia].
  rewrite E. unfold F2R. simpl. rewrite bpow_plus. change (bpow radix2 1) with 2. ring.
Qed.
Lemma double_val (k : B64) : is_finite k = true -> Rabs (B2R k) <= bpow radix2 1021 ->
  is_finite (Bmult mode_NE ntwo k) = true /\ B2R (Bmult mode_NE ntwo k) = 2 * B2R k.
Proof.
  intros F A. destruct two_val as [V W]. destruct (mul_val ntwo k W F) as [X Y].
  - rewrite V, Rabs_mult, (Rabs_right 2) by lra. replace 1022%Z with (1 + 1021)%Z by lia. rewrite bpow_plus. change (bpow radix2 1) with 2. lra.
  - split; [exact X|]. etransitivity; [exact Y|]. rewrite V. apply rnd64_double.
Qed.

(** ** chains of operations *)
(** [x] approximates [r] after about [n] roundings; [M] bounds the quantities added up, [j] and [e] are exponents *)
Record approx (n : R) (x : B64) (r M : R) (j e : Z) : Prop := {
  ap_fin : is_finite x = true;
  ap_n : 0 <= n <= 1000;
  ap_r : Rabs r <= M;
  ap_M : M <= bpow radix2 j;
  ap_e : (-1075 <= e <= 500)%Z;
  ap_err : Rabs (B2R x - r) <= n * u * M + bpow radix2 e }.

Lemma approx_exact (x : B64) j : is_finite x = true -> Rabs (B2R x) <= bpow radix2 j -> approx 0 x (B2R x) (Rabs (B2R x)) j (-1075).
Proof.
  intros F A. constructor; auto; try lra; try lia. rewrite Rminus_eq_0, Rabs_R0. pose proof (bpow_gt_0 radix2 (-1075)). lra.
Qed.
Lemma approx_size n x r M j e : approx n x r M j e -> Rabs (B2R x) <= 2 * M + bpow radix2 e /\ 0 <= M.
Proof.
  intros [F N R1 MJ E A]. pose proof (Rabs_pos r). pose proof u_small. pose proof u_pos.
  assert (Rabs (B2R x) <= Rabs (B2R x - r) + Rabs r).
  { replace (B2R x) with ((B2R x - r) + r) at 1 by ring. apply Rabs_triang. }
  split; [|lra]. assert (n * u <= 1) by nra. nra.
Qed.

(** the error after one more rounding of a scaled value *)
Lemma scale_err (n M E c s0 s r t y : R) : 0 <= n <= 1000 -> 0 <= E -> 0 <= M -> 0 <= c -> Rabs s0 <= M ->
  Rabs (y - s0) <= n * u * M + E -> Rabs r <= c * M -> r = s0 * t -> s = y * t -> Rabs t = c ->
  Rabs (rnd64 s - r) <= (n + 2) * u * (c * M) + (2 * E * c + bpow radix2 (-1075)).
Proof.
  intros N PE PM PC A B C -> -> D. pose proof u_small. pose proof u_pos.
  pose proof (rnd64_error (y * t)) as Q. rewrite Rabs_mult, D in Q.
  assert (Rabs (rnd64 (y * t) - s0 * t) <= Rabs (rnd64 (y * t) - y * t) + Rabs (y - s0) * c).
  { rewrite <- D, <- Rabs_mult. replace (rnd64 (y * t) - s0 * t) with ((rnd64 (y * t) - y * t) + (y - s0) * t) by ring. apply Rabs_triang. }
  assert (Rabs y <= Rabs (y - s0) + Rabs s0).
  { replace y with ((y - s0) + s0) at 1 by ring. apply Rabs_triang. }
  assert (K : n * u <= / 2) by nra.
  assert (Rabs (y - s0) * c <= (n * u * M + E) * c) by (apply Rmult_le_compat_r; auto).
  assert (Rabs y <= (n * u + 1) * M + E) by lra.
  assert (Rabs y * c <= ((n * u + 1) * M + E) * c) by (apply Rmult_le_compat_r; auto).
  assert (0 <= M * c) by (apply Rmult_le_pos; auto). assert (0 <= E * c) by (apply Rmult_le_pos; auto).
  assert (u * (Rabs y * c) <= u * (((n * u + 1) * M + E) * c)) by (apply Rmult_le_compat_l; lra).
  assert (u * ((n * u) * (M * c)) <= u * (/ 2 * (M * c))) by (apply Rmult_le_compat_l; [lra|]; apply Rmult_le_compat_r; auto).
  assert (u * (E * c) <= 1 * (E * c)) by (apply Rmult_le_compat_r; lra).
  assert (0 <= u * (M * c)) by (apply Rmult_le_pos; lra).
  nra.
Qed.

Lemma bpow_two j : 2 * bpow radix2 j = bpow radix2 (j + 1).
Proof. rewrite bpow_plus. change (bpow radix2 1) with 2. ring. Qed.

(** scaling by a factor of absolute value at most 2^k *)
Lemma approx_scale n x r M j e (t : R) (y : B64) k : approx n x r M j e -> (0 <= k)%Z -> Rabs t <= bpow radix2 k ->
  (j + k + 2 <= 1022)%Z -> (e + k + 2 <= 500)%Z -> n + 2 <= 1000 -> (0 <= j)%Z ->
  (is_finite y = true /\ B2R y = rnd64 (B2R x * t)) ->
  approx (n + 2) y (r * t) (M * Rabs t) (j + k) (e + k + 2).
Proof.
  intros P K T J E N J0 [F V]. pose proof (approx_size _ _ _ _ _ _ P) as [S1 M0]. destruct P as [Fx Nx Rx Mx Ex Ax].
  pose proof (bpow_gt_0 radix2 e). pose proof (bpow_gt_0 radix2 k). pose proof (Rabs_pos t).
  constructor; auto; try lra; try lia.
  - rewrite Rabs_mult. apply Rmult_le_compat_r; auto.
  - rewrite bpow_plus. apply Rmult_le_compat; auto.
  - rewrite V. eapply Rle_trans.
    + apply (scale_err n M (bpow radix2 e) (Rabs t) r (B2R x * t) (r * t) t (B2R x)); auto; try lra.
      rewrite Rabs_mult. rewrite (Rmult_comm (Rabs t)). apply Rmult_le_compat_r; auto.
    + rewrite (Rmult_comm (Rabs t) M). apply Rplus_le_compat_l.
      assert (bpow radix2 (-1075) <= bpow radix2 (e + k + 1)) by (apply bpow_le; lia).
      assert (2 * bpow radix2 e * Rabs t <= bpow radix2 (e + k + 1)).
      { replace (e + k + 1)%Z with (e + 1 + k)%Z by lia. rewrite (bpow_plus radix2 (e + 1) k), <- bpow_two. apply Rmult_le_compat_l; lra. }
      replace (e + k + 2)%Z with (e + k + 1 + 1)%Z by lia. rewrite <- bpow_two. lra.
Qed.
Lemma approx_range n x r M j e (t : R) k : approx n x r M j e -> (0 <= k)%Z -> Rabs t <= bpow radix2 k ->
  (j + k + 2 <= 1022)%Z -> (e + k + 2 <= 500)%Z -> (0 <= j)%Z -> Rabs (B2R x * t) <= bpow radix2 1022.
Proof.
  intros P K T J E J0. pose proof (approx_size _ _ _ _ _ _ P) as [S1 M0]. destruct P as [Fx Nx Rx Mx Ex Ax].
  rewrite Rabs_mult. apply Rle_trans with ((2 * bpow radix2 j + bpow radix2 e) * bpow radix2 k).
  - apply Rmult_le_compat; auto using Rabs_pos. lra.
  - rewrite Rmult_plus_distr_r, Rmult_assoc, <- !bpow_plus.
    assert (bpow radix2 (e + k) <= 2 * bpow radix2 1020) by (rewrite bpow_two; apply bpow_le; lia).
    assert (bpow radix2 (j + k) <= bpow radix2 1020) by (apply bpow_le; lia).
    assert (bpow radix2 1022 = 4 * bpow radix2 1020) by (replace 1022%Z with (2 + 1020)%Z by lia; rewrite bpow_plus; reflexivity).
    lra.
Qed.

Lemma approx_mul n x r M j e (q : B64) k : approx n x r M j e -> is_finite q = true -> (0 <= k)%Z -> Rabs (B2R q) <= bpow radix2 k ->
  (j + k + 2 <= 1022)%Z -> (e + k + 2 <= 500)%Z -> n + 2 <= 1000 -> (0 <= j)%Z ->
  approx (n + 2) (nmul x q) (r * B2R q) (M * Rabs (B2R q)) (j + k) (e + k + 2).
Proof.
  intros P F K T J E N J0. apply approx_scale with (x := x); auto. apply mul_val; auto; [apply P|].
  apply (approx_range n x r M j e _ k); auto.
Qed.
Lemma approx_mul_l n x r M j e (q : B64) k : approx n x r M j e -> is_finite q = true -> (0 <= k)%Z -> Rabs (B2R q) <= bpow radix2 k ->
  (j + k + 2 <= 1022)%Z -> (e + k + 2 <= 500)%Z -> n + 2 <= 1000 -> (0 <= j)%Z ->
  approx (n + 2) (nmul q x) (B2R q * r) (M * Rabs (B2R q)) (j + k) (e + k + 2).
Proof.
  intros P F K T J E N J0. rewrite (Rmult_comm (B2R q) r). apply approx_scale with (x := x); auto.
  rewrite (Rmult_comm (B2R x)). apply mul_val; auto; [apply P|].
  rewrite (Rmult_comm (B2R q)). apply (approx_range n x r M j e _ k); auto.
Qed.
Lemma approx_div n x r M j e (q : B64) k : approx n x r M j e -> is_finite q = true -> (0 <= k)%Z -> bpow radix2 (- k) <= Rabs (B2R q) ->
  (j + k + 2 <= 1022)%Z -> (e + k + 2 <= 500)%Z -> n + 2 <= 1000 -> (0 <= j)%Z ->
  approx (n + 2) (ndiv x q) (r / B2R q) (M / Rabs (B2R q)) (j + k) (e + k + 2).
Proof.
  intros P F K T J E N J0. pose proof (bpow_gt_0 radix2 (- k)).
  assert (NZ : B2R q <> 0) by (intros Z0; rewrite Z0, Rabs_R0 in T; lra).
  assert (IT : Rabs (/ B2R q) <= bpow radix2 k).
  { rewrite Rabs_inv. replace (bpow radix2 k) with (/ bpow radix2 (- k)) by (rewrite bpow_opp, Rinv_inv; auto). apply Rinv_le; auto. }
  unfold Rdiv. rewrite <- Rabs_inv. apply approx_scale with (x := x); auto. apply div_val; auto; [apply P|].
  apply (approx_range n x r M j e _ k); auto.
Qed.

Lemma approx_neg n x r M j e : approx n x r M j e -> approx n (nopp x) (- r) M j e.
Proof.
  intros [F N R1 MJ E A]. constructor; auto.
  - cbn [nopp num_b64]. rewrite is_finite_Bopp. auto.
  - rewrite Rabs_Ropp. auto.
  - cbn [nopp num_b64]. rewrite B2R_Bopp. replace (- B2R x - - r) with (- (B2R x - r)) by ring. rewrite Rabs_Ropp. auto.
Qed.

(** sums *)
Lemma sum_err (n n' N M M' E E' r s a b : R) : 0 <= n <= N -> 0 <= n' <= N -> N <= 1000 -> 0 <= E -> 0 <= E' -> 0 <= M -> 0 <= M' ->
  Rabs r <= M -> Rabs s <= M' -> Rabs (a - r) <= n * u * M + E -> Rabs (b - s) <= n' * u * M' + E' ->
  Rabs (a + b) <= 2 * (M + M') + (E + E') /\
  u * Rabs (a + b) + Rabs ((a + b) - (r + s)) <= (N + 2) * u * (M + M') + 2 * (E + E').
Proof.
  intros Hn Hn' HN PE PE' PM PM' A B C D. pose proof u_small. pose proof u_pos.
  assert (X : Rabs (a + b - (r + s)) <= Rabs (a - r) + Rabs (b - s)).
  { replace (a + b - (r + s)) with ((a - r) + (b - s)) by ring. apply Rabs_triang. }
  assert (n * u * M <= N * u * M) by (apply Rmult_le_compat_r; [lra|]; apply Rmult_le_compat_r; lra).
  assert (n' * u * M' <= N * u * M') by (apply Rmult_le_compat_r; [lra|]; apply Rmult_le_compat_r; lra).
  assert (Y : Rabs (a + b) <= Rabs (a + b - (r + s)) + (M + M')).
  { replace (a + b) with ((a + b - (r + s)) + (r + s)) at 1 by ring. eapply Rle_trans; [apply Rabs_triang|].
    pose proof (Rabs_triang r s). lra. }
  assert (K : N * u <= / 2) by nra. set (Q := M + M') in *. assert (0 <= Q) by (unfold Q; lra).
  assert (Z : Rabs (a + b - (r + s)) <= N * u * Q + (E + E')) by (unfold Q; lra).
  assert (N * u * Q <= / 2 * Q) by (apply Rmult_le_compat_r; auto).
  split; [lra|].
  assert (u * Rabs (a + b) <= u * (2 * Q + (E + E'))) by (apply Rmult_le_compat_l; lra).
  assert (u * (E + E') <= 1 * (E + E')) by (apply Rmult_le_compat_r; lra).
  assert (u * Rabs (a + b) <= u * (N * u * Q + Q + (E + E'))) by (apply Rmult_le_compat_l; lra).
  assert (u * (N * u * Q) <= u * (/ 2 * Q)) by (apply Rmult_le_compat_l; lra).
  nra.
Qed.

Lemma approx_sum n n' N x y r s M M' j e j2 e2 z : approx n x r M j e -> approx n' y s M' j e -> n <= N -> n' <= N -> N + 2 <= 1000 ->
  (0 <= j)%Z -> (j + 3 <= 1022)%Z -> (e + 2 <= 500)%Z -> j2 = (j + 1)%Z -> e2 = (e + 2)%Z ->
  (Rabs (B2R x + B2R y) <= bpow radix2 1022 -> is_finite z = true /\ B2R z = rnd64 (B2R x + B2R y)) ->
  approx (N + 2) z (r + s) (M + M') j2 e2.
Proof.
  intros P P' HN HN' N1 J0 J E -> -> V.
  pose proof (approx_size _ _ _ _ _ _ P) as [_ M0]. pose proof (approx_size _ _ _ _ _ _ P') as [_ M0'].
  destruct P as [Fx Nx Rx Mx Ex Ax]. destruct P' as [Fy Ny Ry My Ey Ay].
  pose proof (bpow_gt_0 radix2 e).
  destruct (sum_err n n' N M M' (bpow radix2 e) (bpow radix2 e) r s (B2R x) (B2R y)) as [S1 S2]; auto; try lra.
  assert (B : Rabs (B2R x + B2R y) <= bpow radix2 1022).
  { assert (bpow radix2 e <= bpow radix2 1018) by (apply bpow_le; lia).
    assert (bpow radix2 j <= bpow radix2 1019) by (apply bpow_le; lia).
    assert (bpow radix2 1022 = 8 * bpow radix2 1019) by (replace 1022%Z with (3 + 1019)%Z by lia; rewrite bpow_plus; reflexivity).
    assert (bpow radix2 1019 = 2 * bpow radix2 1018) by (replace 1019%Z with (1 + 1018)%Z by lia; rewrite bpow_plus; reflexivity).
    lra. }
  destruct (V B) as [Fz Vz].
  constructor; auto; try lra; try lia.
  - eapply Rle_trans; [apply Rabs_triang|lra].
  - rewrite <- bpow_two. lra.
  - rewrite Vz. pose proof (rnd64_sum x y) as Q.
    assert (Rabs (rnd64 (B2R x + B2R y) - (r + s)) <= Rabs (rnd64 (B2R x + B2R y) - (B2R x + B2R y)) + Rabs (B2R x + B2R y - (r + s))).
    { replace (rnd64 (B2R x + B2R y) - (r + s)) with ((rnd64 (B2R x + B2R y) - (B2R x + B2R y)) + (B2R x + B2R y - (r + s))) by ring. apply Rabs_triang. }
    replace (e + 2)%Z with (e + 1 + 1)%Z by lia. rewrite <- !bpow_two. lra.
Qed.
Lemma approx_weak n x r M j e j' e' : approx n x r M j e -> (j <= j')%Z -> (e <= e' <= 500)%Z -> approx n x r M j' e'.
Proof.
  intros [F N R1 MJ E A] J E2. constructor; auto; try lia.
  - eapply Rle_trans; [exact MJ|]. apply bpow_le; auto.
  - eapply Rle_trans; [exact A|]. apply Rplus_le_compat_l. apply bpow_le; lia.
Qed.
Lemma approx_add n n' N x y r s M M' j e j1 e1 j' e' : approx n x r M j e -> approx n' y s M' j' e' -> n <= N -> n' <= N -> N + 2 <= 1000 ->
  (j <= j1)%Z -> (j' <= j1)%Z -> (e <= e1)%Z -> (e' <= e1)%Z ->
  (0 <= j1)%Z -> (j1 + 3 <= 1022)%Z -> (e1 + 2 <= 500)%Z ->
  approx (N + 2) (nadd x y) (r + s) (M + M') (j1 + 1) (e1 + 2).
Proof.
  intros P P' HN HN' N1 J1 J2 E1 E2 J0 J E.
  apply (approx_sum n n' N x y r s M M' j1 e1); auto.
  - apply (approx_weak _ _ _ _ j e); auto; lia.
  - apply (approx_weak _ _ _ _ j' e'); auto; lia.
  - apply add_val; [apply P|apply P'].
Qed.
Lemma approx_sub n n' N x y r s M M' j e j1 e1 j' e' : approx n x r M j e -> approx n' y s M' j' e' -> n <= N -> n' <= N -> N + 2 <= 1000 ->
  (j <= j1)%Z -> (j' <= j1)%Z -> (e <= e1)%Z -> (e' <= e1)%Z ->
  (0 <= j1)%Z -> (j1 + 3 <= 1022)%Z -> (e1 + 2 <= 500)%Z ->
  approx (N + 2) (nsub x y) (r - s) (M + M') (j1 + 1) (e1 + 2).
Proof.
  intros P P' HN HN' N1 J1 J2 E1 E2 J0 J E.
  pose proof (approx_neg _ _ _ _ _ _ P') as P2.
  apply (approx_sum n n' N x (nopp y) r (- s) M M' j1 e1); auto.
  - apply (approx_weak _ _ _ _ j e); auto; lia.
  - apply (approx_weak _ _ _ _ j' e'); auto; lia.
  - cbn [nopp nsub num_b64]. rewrite B2R_Bopp. apply sub_val; [apply P|apply P'].
Qed.

(** into the vocabulary of the specification *)
Lemma approx_within n x r M j e : approx n x r M j e -> (e <= -600)%Z -> within n x r M.
Proof.
  intros [F N R1 MJ E A] L. split; auto. eapply Rle_trans; [exact A|]. apply Rplus_le_compat_l. apply bpow_le; auto.
Qed.
Lemma within_weak n x r M n' M' : within n x r M -> 0 <= n <= n' -> 0 <= M <= M' -> within n' x r M'.
Proof.
  intros [F A] N Mm. split; auto. eapply Rle_trans; [exact A|]. apply Rplus_le_compat_r. pose proof u_pos.
  apply Rmult_le_compat; try lra; [apply Rmult_le_pos; lra|apply Rmult_le_compat_r; lra].
Qed.
Lemma approx_moderate x : moderate x -> approx 0 x (B2R x) (Rabs (B2R x)) 500 (-1075).
Proof. intros [F A]. apply approx_exact; auto. Qed.
