(** Order facts common to both interpretations of [double], and rounding facts for binary64. *)
From Coq Require Import Reals ZArith Bool Lra Lia.
From Flocq Require Import Core.Core IEEE754.BinarySingleNaN.
From Verif.Model Require Import Base Num.
Local Open Scope R_scope.
#[global] Arguments bpow : simpl never.

(** Every number that is not a NaN has a place on a common line. *)
Class NumOrd (T : Type) {N : Num T} := {
  ordv : T -> option R;
  ltb_ord : forall x y, nltb x y = match ordv x, ordv y with Some a, Some b => Rlt_bool a b | _, _ => false end;
  leb_ord : forall x y, nleb x y = match ordv x, ordv y with Some a, Some b => Rle_bool a b | _, _ => false end;
  eqb_ord : forall x y, neqb x y = match ordv x, ordv y with Some a, Some b => Req_bool a b | _, _ => false end;
  opp_ord : forall x, ordv (nopp x) = match ordv x with Some a => Some (- a) | None => None end;
  abs_ord : forall x, ordv (nabs x) = match ordv x with Some a => Some (Rabs a) | None => None end;
  zero_ord : ordv (nofZ 0) = Some 0 }.

#[global] Program Instance ord_R : NumOrd R := {| ordv := Some |}.

Definition b64_ord (x : B64) : option R :=
  match x with
  | B754_nan => None
  | B754_infinity s => Some (if s then - bpow radix2 1024 else bpow radix2 1024)
  | _ => Some (B2R x)
  end.

Lemma b64_ord_finite (x : B64) : is_finite x = true -> b64_ord x = Some (B2R x).
Proof. destruct x; simpl; try discriminate; auto. Qed.

Lemma b64_bound (x : B64) : - bpow radix2 1024 < B2R x < bpow radix2 1024.
Proof. pose proof (abs_B2R_lt_emax 53 1024 x) as A. apply Rabs_def2 in A. lra. Qed.

Lemma bpow1024_pos : 0 < bpow radix2 1024.
Proof. apply bpow_gt_0. Qed.

Ltac rb := repeat match goal with
  | |- context [Rlt_bool ?a ?b] => destruct (Rlt_bool_spec a b)
  | |- context [Rle_bool ?a ?b] => destruct (Rle_bool_spec a b)
  | |- context [Req_bool ?a ?b] => destruct (Req_bool_spec a b)
  end.

Lemma b64_cases (f : B64 -> B64 -> bool) (g : R -> R -> bool) :
  (forall x y, is_finite x = true -> is_finite y = true -> f x y = g (B2R x) (B2R y)) ->
  (forall s x y, is_finite x = true -> is_nan y = false ->
     y = B754_infinity s -> f x y = g (B2R x) (if s then - bpow radix2 1024 else bpow radix2 1024)) ->
  (forall s x y, is_finite x = true -> is_nan y = false ->
     y = B754_infinity s -> f y x = g (if s then - bpow radix2 1024 else bpow radix2 1024) (B2R x)) ->
  (forall s t, f (B754_infinity s) (B754_infinity t) =
     g (if s then - bpow radix2 1024 else bpow radix2 1024) (if t then - bpow radix2 1024 else bpow radix2 1024)) ->
  (forall x, f B754_nan x = false) -> (forall x, f x B754_nan = false) ->
  forall x y, f x y = match b64_ord x, b64_ord y with Some a, Some b => g a b | _, _ => false end.
Proof.
  intros A B C D E F x y.
  assert (K : forall z : B64, is_finite z = true \/ (exists s, z = B754_infinity s) \/ z = B754_nan)
    by (intros [| | |]; simpl; eauto).
  destruct (K x) as [Hx|[[s Hx]|Hx]]; destruct (K y) as [Hy|[[t Hy]|Hy]].
  - rewrite (b64_ord_finite x), (b64_ord_finite y); auto.
  - subst y. rewrite (b64_ord_finite x Hx). simpl. apply B with (s := t); auto.
  - subst y. rewrite F. destruct (b64_ord x); reflexivity.
  - subst x. rewrite (b64_ord_finite y Hy). simpl. apply C with (s := s); auto.
  - subst. simpl. apply D.
  - subst. rewrite F. destruct (b64_ord _); reflexivity.
  - subst x. rewrite E. reflexivity.
  - subst. rewrite E. reflexivity.
  - subst. rewrite E. reflexivity.
Qed.

Lemma b64_ltb_ord (x y : B64) :
  Bltb x y = match b64_ord x, b64_ord y with Some a, Some b => Rlt_bool a b | _, _ => false end.
Proof.
  pose proof bpow1024_pos.
  apply (b64_cases Bltb Rlt_bool).
  - apply Bltb_correct.
  - intros s a b Ha _ ->. pose proof (b64_bound a).
    destruct s, a as [[|]| | |[|]]; try discriminate; cbn - [B2R bpow]; symmetry; rb; try reflexivity; try lra.
  - intros s a b Ha _ ->. pose proof (b64_bound a).
    destruct s, a as [[|]| | |[|]]; try discriminate; cbn - [B2R bpow]; symmetry; rb; try reflexivity; try lra.
  - intros [|] [|]; cbn - [bpow]; symmetry; rb; try reflexivity; lra.
  - intros []; reflexivity.
  - intros [| | |]; reflexivity.
Qed.

Lemma b64_leb_ord (x y : B64) :
  Bleb x y = match b64_ord x, b64_ord y with Some a, Some b => Rle_bool a b | _, _ => false end.
Proof.
  pose proof bpow1024_pos.
  apply (b64_cases Bleb Rle_bool).
  - apply Bleb_correct.
  - intros s a b Ha _ ->. pose proof (b64_bound a).
    destruct s, a as [[|]| | |[|]]; try discriminate; cbn - [B2R bpow]; symmetry; rb; try reflexivity; try lra.
  - intros s a b Ha _ ->. pose proof (b64_bound a).
    destruct s, a as [[|]| | |[|]]; try discriminate; cbn - [B2R bpow]; symmetry; rb; try reflexivity; try lra.
  - intros [|] [|]; cbn - [bpow]; symmetry; rb; try reflexivity; lra.
  - intros []; reflexivity.
  - intros [| | |]; reflexivity.
Qed.

Lemma b64_eqb_ord (x y : B64) :
  Beqb x y = match b64_ord x, b64_ord y with Some a, Some b => Req_bool a b | _, _ => false end.
Proof.
  pose proof bpow1024_pos.
  apply (b64_cases Beqb Req_bool).
  - apply Beqb_correct.
  - intros s a b Ha _ ->. pose proof (b64_bound a).
    destruct s, a as [[|]| | |[|]]; try discriminate; cbn - [B2R bpow]; symmetry; rb; try reflexivity; try lra.
  - intros s a b Ha _ ->. pose proof (b64_bound a).
    destruct s, a as [[|]| | |[|]]; try discriminate; cbn - [B2R bpow]; symmetry; rb; try reflexivity; try lra.
  - intros [|] [|]; cbn - [bpow]; symmetry; rb; try reflexivity; lra.
  - intros []; reflexivity.
  - intros [| | |]; reflexivity.
Qed.

Lemma b64_opp_ord (x : B64) : b64_ord (Bopp x) = match b64_ord x with Some a => Some (- a) | None => None end.
Proof.
  destruct x as [s|s| |s m e B]; try reflexivity.
  - simpl. f_equal. ring.
  - simpl. destruct s; simpl; f_equal; ring.
  - rewrite (b64_ord_finite (B754_finite s m e B) eq_refl), b64_ord_finite by reflexivity. f_equal. apply B2R_Bopp.
Qed.

Lemma b64_abs_ord (x : B64) : b64_ord (Babs x) = match b64_ord x with Some a => Some (Rabs a) | None => None end.
Proof.
  pose proof bpow1024_pos.
  destruct x as [s|s| |s m e B]; try reflexivity.
  - simpl. rewrite Rabs_R0. reflexivity.
  - simpl. destruct s; f_equal; symmetry; [rewrite Rabs_left | rewrite Rabs_right]; lra.
  - rewrite (b64_ord_finite (B754_finite s m e B) eq_refl), b64_ord_finite by reflexivity. f_equal. apply B2R_Babs.
Qed.

#[global] Instance ord_B64 : NumOrd B64 := {|
  ordv := b64_ord; ltb_ord := b64_ltb_ord; leb_ord := b64_leb_ord; eqb_ord := b64_eqb_ord;
  opp_ord := b64_opp_ord; abs_ord := b64_abs_ord; zero_ord := eq_refl |}.

(** ** sign of rounded operations *)
Lemma b64_round_ge0 (x : R) : 0 <= x -> 0 <= round radix2 (SpecFloat.fexp 53 1024) (round_mode mode_NE) x.
Proof.
  intros Hx. apply round_ge_generic; auto.
  - apply fexp_correct; reflexivity.
  - apply valid_rnd_round_mode.
  - apply generic_format_0.
Qed.
Lemma b64_round_le0 (x : R) : x <= 0 -> round radix2 (SpecFloat.fexp 53 1024) (round_mode mode_NE) x <= 0.
Proof.
  intros Hx. apply round_le_generic; auto.
  - apply fexp_correct; reflexivity.
  - apply valid_rnd_round_mode.
  - apply generic_format_0.
Qed.

(** subtraction of finite numbers never yields NaN and has the right sign (it may overflow to an infinity) *)
Lemma b64_minus_sign (x y : B64) : is_finite x = true -> is_finite y = true ->
  exists r, b64_ord (Bminus mode_NE x y) = Some r /\ (B2R y <= B2R x -> 0 <= r) /\ (B2R x <= B2R y -> r <= 0).
Proof.
  intros Fx Fy. pose proof bpow1024_pos.
  pose proof (Bminus_correct 53 1024 _ _ mode_NE x y Fx Fy) as C.
  destruct (Rlt_bool_spec (Rabs (round radix2 (SpecFloat.fexp 53 1024) (round_mode mode_NE) (B2R x - B2R y))) (bpow radix2 1024)) as [L|L].
  - destruct C as [E [F _]]. exists (B2R (Bminus mode_NE x y)). rewrite b64_ord_finite by exact F.
    split; [reflexivity|]. split; intros; rewrite E; [apply b64_round_ge0|apply b64_round_le0]; lra.
  - destruct C as [E Sg].
    destruct (Bminus mode_NE x y) as [s|s| |s m e B] eqn:D; try discriminate.
    simpl in E. injection E as E. subst s. simpl.
    eexists. split; [reflexivity|].
    destruct (Bsign x) eqn:Sx; destruct (Bsign y) eqn:Sy; simpl in Sg; try discriminate; split; intros; try lra.
    + (* x negative, y positive *)
      assert (B2R x <= 0) by (destruct x as [| | |[|] m e B]; simpl in *; try discriminate; try lra;
        apply F2R_le_0; simpl; lia).
      assert (0 <= B2R y) by (destruct y as [| | |[|] m e B]; simpl in *; try discriminate; try lra;
        apply F2R_ge_0; simpl; lia).
      exfalso. assert (E0 : B2R x - B2R y = 0) by lra. rewrite E0 in L. rewrite round_0 in L by apply valid_rnd_round_mode.
      rewrite Rabs_R0 in L. lra.
    + assert (0 <= B2R x) by (destruct x as [| | |[|] m e B]; simpl in *; try discriminate; try lra;
        apply F2R_ge_0; simpl; lia).
      assert (B2R y <= 0) by (destruct y as [| | |[|] m e B]; simpl in *; try discriminate; try lra;
        apply F2R_le_0; simpl; lia).
      exfalso. assert (E0 : B2R x - B2R y = 0) by lra. rewrite E0 in L. rewrite round_0 in L by apply valid_rnd_round_mode.
      rewrite Rabs_R0 in L. lra.
Qed.

(** product of a strictly positive finite number, negated, and any non-NaN number *)
Lemma b64_neg_mult_sign (k x : B64) (r : R) : is_finite k = true -> 0 < B2R k -> b64_ord x = Some r ->
  exists q, b64_ord (Bmult mode_NE (Bopp k) x) = Some q /\ (0 <= r -> q <= 0) /\ (r <= 0 -> 0 <= q).
Proof.
  intros Fk Pk Ox. pose proof bpow1024_pos.
  assert (Nk : exists m e B, k = B754_finite false m e B).
  { destruct k as [| | |[|] m e B]; simpl in *; try discriminate; try lra.
    - exfalso. assert (F2R (Float radix2 (Z.neg m) e) <= 0) by (apply F2R_le_0; simpl; lia). lra.
    - eauto. }
  destruct Nk as [m [e [B Ek]]].
  destruct x as [s|s| |s mx ex Bx]; try discriminate.
  - exists 0. subst k. simpl. split; [reflexivity|]. lra.
  - subst k. simpl. destruct s; simpl in *; injection Ox as Ox; subst r; eexists; (split; [reflexivity|]); lra.
  - pose proof (Bmult_correct 53 1024 _ _ mode_NE (Bopp k) (B754_finite s mx ex Bx)) as C.
    rewrite (b64_ord_finite (B754_finite s mx ex Bx) eq_refl) in Ox. injection Ox as Ox.
    change (B2R (B754_finite s mx ex Bx) = r) in Ox. rewrite B2R_Bopp in C. rewrite Ox in C.
    match type of C with context [Rlt_bool ?a ?b] => destruct (Rlt_bool_spec a b) as [L|L] end.
    + destruct C as [E [F _]].
      assert (F' : is_finite (Bmult mode_NE (Bopp k) (B754_finite s mx ex Bx)) = true).
      { rewrite F. rewrite is_finite_Bopp, Fk. reflexivity. }
      exists (B2R (Bmult mode_NE (Bopp k) (B754_finite s mx ex Bx))). rewrite b64_ord_finite by exact F'.
      split; [reflexivity|]. rewrite E. split; intros; [apply b64_round_le0|apply b64_round_ge0]; nra.
    + destruct (Bmult mode_NE (Bopp k) (B754_finite s mx ex Bx)) as [t|t| |t m' e' B'] eqn:D; try discriminate.
      simpl in C. subst k. simpl in C. injection C as C.
      exists (if t then - bpow radix2 1024 else bpow radix2 1024). split; [reflexivity|].
      subst t. destruct s; simpl in *.
      * split; intros; try lra. exfalso. assert (F2R (Float radix2 (Z.neg mx) ex) < 0) by (apply F2R_lt_0; simpl; lia). lra.
      * split; intros; try lra. exfalso. assert (0 < F2R (Float radix2 (Z.pos mx) ex)) by (apply F2R_gt_0; simpl; lia). lra.
Qed.

(** ** monotonicity of rounded operations *)
Definition rnd64 (x : R) : R := round radix2 (SpecFloat.fexp 53 1024) (round_mode mode_NE) x.
(** rounding with overflow to an infinity, which sits at +-2^1024 on the line *)
Definition satrnd (x : R) : R := Rmax (- bpow radix2 1024) (Rmin (bpow radix2 1024) (rnd64 x)).

Lemma rnd64_le x y : x <= y -> rnd64 x <= rnd64 y.
Proof. intros. apply round_le; auto. apply fexp_correct; reflexivity. apply valid_rnd_round_mode. Qed.
Lemma satrnd_le x y : x <= y -> satrnd x <= satrnd y.
Proof.
  intros Hxy. apply rnd64_le in Hxy. unfold satrnd.
  apply Rmax_case_strong; apply Rmax_case_strong; apply Rmin_case_strong; apply Rmin_case_strong; intros; lra.
Qed.
Lemma satrnd_bound x : - bpow radix2 1024 <= satrnd x <= bpow radix2 1024.
Proof. pose proof bpow1024_pos. unfold satrnd. apply Rmax_case_strong; apply Rmin_case_strong; intros; lra. Qed.
Lemma satrnd_in x : Rabs (rnd64 x) < bpow radix2 1024 -> satrnd x = rnd64 x.
Proof.
  intros A. apply Rabs_def2 in A. unfold satrnd. rewrite Rmin_right by lra. apply Rmax_right. lra.
Qed.
Lemma satrnd_0 : satrnd 0 = 0.
Proof. rewrite satrnd_in; unfold rnd64; rewrite round_0 by apply valid_rnd_round_mode; auto. rewrite Rabs_R0. apply bpow1024_pos. Qed.

Lemma satrnd_out x (s : bool) : bpow radix2 1024 <= Rabs (rnd64 x) -> (s = true -> x <= 0) -> (s = false -> 0 <= x) ->
  satrnd x = if s then - bpow radix2 1024 else bpow radix2 1024.
Proof.
  pose proof bpow1024_pos. intros A Sn Sp. destruct s.
  - pose proof (b64_round_le0 x (Sn eq_refl)) as L. fold (rnd64 x) in L. rewrite Rabs_left1 in A by exact L.
    unfold satrnd. rewrite Rmin_right by lra. apply Rmax_left. lra.
  - pose proof (b64_round_ge0 x (Sp eq_refl)) as L. fold (rnd64 x) in L. rewrite Rabs_right in A by lra.
    unfold satrnd. rewrite Rmin_left by lra. apply Rmax_right. lra.
Qed.

Lemma Bsign_pos (x : B64) : is_finite x = true -> Bsign x = false -> 0 <= B2R x.
Proof. destruct x as [| | |[|] m e B]; simpl; try discriminate; intros; try lra. apply F2R_ge_0. simpl. lia. Qed.
Lemma Bsign_neg (x : B64) : is_finite x = true -> Bsign x = true -> B2R x <= 0.
Proof. destruct x as [| | |[|] m e B]; simpl; try discriminate; intros; try lra. apply F2R_le_0. simpl. lia. Qed.

Lemma b64_minus_ord (x y : B64) : is_finite x = true -> is_finite y = true ->
  b64_ord (Bminus mode_NE x y) = Some (satrnd (B2R x - B2R y)).
Proof.
  intros Fx Fy.
  pose proof (Bminus_correct 53 1024 _ _ mode_NE x y Fx Fy) as C.
  change (round radix2 (SpecFloat.fexp 53 1024) (round_mode mode_NE) (B2R x - B2R y)) with (rnd64 (B2R x - B2R y)) in C.
  destruct (Rlt_bool_spec (Rabs (rnd64 (B2R x - B2R y))) (bpow radix2 1024)) as [L|L].
  - destruct C as [E [F _]]. rewrite b64_ord_finite by exact F. rewrite E, satrnd_in; auto.
  - destruct C as [E Sg].
    destruct (Bminus mode_NE x y) as [s|s| |s m e B] eqn:D; try discriminate.
    simpl in E. injection E as E. subst s. simpl. f_equal. symmetry. apply satrnd_out; auto; intros Sx.
    + assert (Bsign y = false) by (destruct (Bsign y); rewrite Sx in Sg; simpl in Sg; congruence).
      pose proof (Bsign_neg x Fx Sx). pose proof (Bsign_pos y Fy H). lra.
    + assert (Bsign y = true) by (destruct (Bsign y); rewrite Sx in Sg; simpl in Sg; congruence).
      pose proof (Bsign_pos x Fx Sx). pose proof (Bsign_neg y Fy H). lra.
Qed.

Lemma b64_mult_ord (x y : B64) : is_finite x = true -> is_finite y = true ->
  b64_ord (Bmult mode_NE x y) = Some (satrnd (B2R x * B2R y)).
Proof.
  intros Fx Fy.
  pose proof (Bmult_correct 53 1024 _ _ mode_NE x y) as C.
  change (round radix2 (SpecFloat.fexp 53 1024) (round_mode mode_NE) (B2R x * B2R y)) with (rnd64 (B2R x * B2R y)) in C.
  destruct (Rlt_bool_spec (Rabs (rnd64 (B2R x * B2R y))) (bpow radix2 1024)) as [L|L].
  - destruct C as [E [F _]].
    assert (F' : is_finite (Bmult mode_NE x y) = true) by (rewrite F, Fx, Fy; reflexivity).
    rewrite b64_ord_finite by exact F'. rewrite E, satrnd_in; auto.
  - destruct (Bmult mode_NE x y) as [s|s| |s m e B] eqn:D; try discriminate.
    simpl in C. injection C as C. subst s. simpl. f_equal. symmetry. apply satrnd_out; auto; intros Sx;
      destruct (Bsign x) eqn:Ex; destruct (Bsign y) eqn:Ey; simpl in Sx; try discriminate;
      repeat match goal with
        | H : Bsign ?z = true |- _ => apply Bsign_neg in H; auto
        | H : Bsign ?z = false |- _ => apply Bsign_pos in H; auto
        end; nra.
Qed.

Lemma b64_ord_bound (x : B64) r : b64_ord x = Some r -> - bpow radix2 1024 <= r <= bpow radix2 1024.
Proof.
  pose proof bpow1024_pos. pose proof (b64_bound x).
  destruct x as [s|s| |s m e B]; try discriminate.
  - simpl. intros [= <-]. lra.
  - simpl. intros [= <-]. destruct s; lra.
  - rewrite (b64_ord_finite (B754_finite s m e B) eq_refl). intros Q. assert (r = B2R (B754_finite s m e B)) by congruence. lra.
Qed.

Lemma b64_minus_mono (x y1 y2 : B64) (r1 r2 a1 a2 : R) :
  b64_ord y1 = Some r1 -> b64_ord y2 = Some r2 -> r1 <= r2 ->
  b64_ord (Bminus mode_NE x y1) = Some a1 -> b64_ord (Bminus mode_NE x y2) = Some a2 -> a2 <= a1.
Proof.
  pose proof bpow1024_pos. intros H1 H2 L A1 A2.
  destruct (is_finite x) eqn:Fx.
  - destruct (is_finite y1) eqn:F1; destruct (is_finite y2) eqn:F2.
    + rewrite b64_minus_ord in A1, A2 by auto. rewrite b64_ord_finite in H1, H2 by auto.
      injection A1 as <-. injection A2 as <-. injection H1 as <-. injection H2 as <-. apply satrnd_le. lra.
    + destruct y2 as [|s| |]; try discriminate. simpl in H2. injection H2 as <-.
      pose proof (b64_bound y1). rewrite b64_ord_finite in H1 by auto. injection H1 as <-.
      destruct s; cbv iota in *; [lra|]. pose proof (b64_ord_bound _ _ A1).
      destruct x as [| | |]; try discriminate; simpl in A2; injection A2 as <-; lra.
    + destruct y1 as [|s| |]; try discriminate. simpl in H1. injection H1 as <-.
      pose proof (b64_bound y2). rewrite b64_ord_finite in H2 by auto. injection H2 as <-.
      destruct s; cbv iota in *; [|lra]. pose proof (b64_ord_bound _ _ A2).
      destruct x as [| | |]; try discriminate; simpl in A1; injection A1 as <-; lra.
    + destruct y1 as [|s| |]; try discriminate. destruct y2 as [|t| |]; try discriminate.
      simpl in H1, H2. injection H1 as <-. injection H2 as <-.
      destruct x as [| | |]; try discriminate; destruct s, t; simpl in *; try lra;
        injection A1 as <-; injection A2 as <-; lra.
  - destruct x as [|sx| |]; try discriminate.
    destruct y1 as [|s| |]; try discriminate; destruct y2 as [|t| |]; try discriminate; destruct sx; simpl in *;
      try (destruct s); try (destruct t); simpl in *; try discriminate; try lra;
      injection A1 as <-; injection A2 as <-; lra.
Qed.

Lemma b64_negmult_mono (k x1 x2 : B64) (r1 r2 a1 a2 : R) : is_finite k = true -> 0 <= B2R k ->
  b64_ord x1 = Some r1 -> b64_ord x2 = Some r2 -> r1 <= r2 ->
  b64_ord (Bmult mode_NE (Bopp k) x1) = Some a1 -> b64_ord (Bmult mode_NE (Bopp k) x2) = Some a2 -> a2 <= a1.
Proof.
  pose proof bpow1024_pos. intros Fk Pk H1 H2 L A1 A2.
  assert (Fk' : is_finite (Bopp k) = true) by (rewrite is_finite_Bopp; auto).
  destruct (is_finite x1) eqn:F1; destruct (is_finite x2) eqn:F2.
  - rewrite b64_mult_ord in A1, A2 by auto. rewrite b64_ord_finite in H1, H2 by auto. rewrite B2R_Bopp in *.
    injection A1 as <-. injection A2 as <-. injection H1 as <-. injection H2 as <-. apply satrnd_le. nra.
  - destruct x2 as [|s| |]; try discriminate. simpl in H2. injection H2 as <-.
    pose proof (b64_bound x1). rewrite b64_ord_finite in H1 by auto. injection H1 as <-.
    destruct s; cbv iota in *; [lra|]. pose proof (b64_ord_bound _ _ A1).
    destruct k as [| | |[|] m e B]; try discriminate; simpl in A2; try discriminate; injection A2 as <-; try lra.
    exfalso. simpl in Pk. assert (F2R (Float radix2 (Z.neg m) e) < 0) by (apply F2R_lt_0; simpl; lia). lra.
  - destruct x1 as [|s| |]; try discriminate. simpl in H1. injection H1 as <-.
    pose proof (b64_bound x2). rewrite b64_ord_finite in H2 by auto. injection H2 as <-.
    destruct s; cbv iota in *; [|lra]. pose proof (b64_ord_bound _ _ A2).
    destruct k as [| | |[|] m e B]; try discriminate; simpl in A1; try discriminate; injection A1 as <-; try lra.
    exfalso. simpl in Pk. assert (F2R (Float radix2 (Z.neg m) e) < 0) by (apply F2R_lt_0; simpl; lia). lra.
  - destruct x1 as [|s| |]; try discriminate. destruct x2 as [|t| |]; try discriminate.
    simpl in H1, H2. injection H1 as <-. injection H2 as <-.
    destruct k as [| | |[|] m e B]; try discriminate; simpl in A1, A2; try discriminate;
      [exfalso; simpl in Pk; assert (F2R (Float radix2 (Z.neg m) e) < 0) by (apply F2R_lt_0; simpl; lia); lra|].
    injection A1 as <-. injection A2 as <-. destruct s, t; simpl in *; lra.
Qed.

(** NaN is contagious *)
Lemma b64_minus_nan (x y : B64) r : b64_ord (Bminus mode_NE x y) = Some r -> exists a b, b64_ord x = Some a /\ b64_ord y = Some b.
Proof. destruct x as [| | |], y as [| | |]; try discriminate; simpl; eauto. Qed.
Lemma b64_mult_nan (x y : B64) r : b64_ord (Bmult mode_NE x y) = Some r -> exists a b, b64_ord x = Some a /\ b64_ord y = Some b.
Proof. destruct x as [| | |], y as [| | |]; try discriminate; simpl; eauto. Qed.

(** a non-NaN number minus a finite one: never NaN *)
Lemma b64_minus_finite (x y : B64) (r : R) : b64_ord x = Some r -> is_finite y = true ->
  exists a, b64_ord (Bminus mode_NE x y) = Some a /\ (B2R y <= r -> 0 <= a) /\ (r <= B2R y -> a <= 0).
Proof.
  intros Hx Fy. pose proof bpow1024_pos. pose proof (b64_bound y).
  destruct (is_finite x) eqn:Fx.
  - rewrite b64_ord_finite in Hx by auto. injection Hx as <-. apply b64_minus_sign; auto.
  - destruct x as [|s| |]; try discriminate. simpl in Hx. injection Hx as <-.
    exists (if s then - bpow radix2 1024 else bpow radix2 1024).
    destruct y as [| | |]; try discriminate; split; try reflexivity; destruct s; split; intros; lra.
Qed.

Lemma b64_ord_inside (x : B64) r : b64_ord x = Some r -> - bpow radix2 1024 < r < bpow radix2 1024 -> is_finite x = true.
Proof.
  pose proof bpow1024_pos. destruct x as [s|s| |s m e B]; try discriminate; auto. simpl. intros [= <-]. destruct s; lra.
Qed.

(** ** division, addition and absolute values *)
Lemma b64_div_ord (x y : B64) : is_finite x = true -> is_finite y = true -> B2R y <> 0 ->
  b64_ord (Bdiv mode_NE x y) = Some (satrnd (B2R x / B2R y)).
Proof.
  intros Fx Fy NZ.
  pose proof (Bdiv_correct 53 1024 _ _ mode_NE x y NZ) as C.
  change (round radix2 (SpecFloat.fexp 53 1024) (round_mode mode_NE) (B2R x / B2R y)) with (rnd64 (B2R x / B2R y)) in C.
  destruct (Rlt_bool_spec (Rabs (rnd64 (B2R x / B2R y))) (bpow radix2 1024)) as [L|L].
  - destruct C as [E [F _]].
    assert (F' : is_finite (Bdiv mode_NE x y) = true) by (rewrite F, Fx; reflexivity).
    rewrite b64_ord_finite by exact F'. rewrite E, satrnd_in; auto.
  - destruct (Bdiv mode_NE x y) as [s|s| |s m e B] eqn:D; try discriminate.
    simpl in C. injection C as C. subst s. simpl. f_equal. symmetry. unfold Rdiv. apply satrnd_out; auto; intros Sx;
      destruct (Bsign x) eqn:Ex; destruct (Bsign y) eqn:Ey; simpl in Sx; try discriminate;
      repeat match goal with
        | H : Bsign ?z = true |- _ => apply Bsign_neg in H; auto
        | H : Bsign ?z = false |- _ => apply Bsign_pos in H; auto
        end.
    + assert (0 < / B2R y) by (apply Rinv_0_lt_compat; lra). nra.
    + assert (/ B2R y < 0) by (apply Rinv_lt_0_compat; lra). nra.
    + assert (/ B2R y < 0) by (apply Rinv_lt_0_compat; lra). nra.
    + assert (0 < / B2R y) by (apply Rinv_0_lt_compat; lra). nra.
Qed.
Lemma rnd64_opp x : rnd64 (- x) = - rnd64 x.
Proof. unfold rnd64. apply round_NE_opp. Qed.
Lemma satrnd_opp x : satrnd (- x) = - satrnd x.
Proof.
  pose proof bpow1024_pos. unfold satrnd. rewrite rnd64_opp. repeat (apply Rmax_case_strong || apply Rmin_case_strong); intros; lra.
Qed.
Lemma satrnd_abs x : Rabs (satrnd x) = satrnd (Rabs x).
Proof.
  destruct (Rle_or_lt 0 x) as [P|P].
  - rewrite (Rabs_right x) by lra. apply Rabs_right. rewrite <- satrnd_0. apply Rle_ge, satrnd_le. exact P.
  - rewrite (Rabs_left x) by lra. rewrite satrnd_opp. apply Rabs_left1. rewrite <- satrnd_0. apply satrnd_le. lra.
Qed.
Lemma satrnd_abs_le x y : Rabs x <= Rabs y -> Rabs (satrnd x) <= Rabs (satrnd y).
Proof. intros L. rewrite !satrnd_abs. apply satrnd_le. exact L. Qed.
