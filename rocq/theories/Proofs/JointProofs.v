From Coq Require Import List Bool Reals ZArith Lra Lia.
From Flocq Require Import Core.Core IEEE754.BinarySingleNaN.
From Verif.Model Require Import Base Num Joint.
From Verif.Spec Require Import JointSpec.
From Verif.Proofs Require Import NumFacts.
Import ListNotations.
Local Open Scope R_scope.

Section Generic.
Context {T : Type} {N : Num T} {O : NumOrd T}.

Lemma isnan_ord x : nisnan x = match ordv x with Some _ => false | None => true end.
Proof. unfold nisnan. rewrite eqb_ord. destruct (ordv x); [rb|]; auto; congruence. Qed.

(** a bound expression of the code: clamp e into [-m,m], a NaN e giving the upper/lower end *)
Lemma clamp_high m e r : ordv m = Some r ->
  exists q, ordv (nmax (nopp m) (nmin m e)) = Some q /\ - Rabs r <= q <= Rabs r /\
    (forall a, ordv e = Some a -> (q <= Rmax (- r) a)) /\
    (forall a, ordv e = Some a -> a <= r -> - r <= a -> q = a) /\
    (forall a, ordv e = Some a -> r <= a -> - r <= r -> q = r) /\
    (ordv e = None -> q = Rabs r) /\ (r < 0 -> q = - r).
Proof.
  intros Hm. unfold nmax, nmin. rewrite !ltb_ord, opp_ord, Hm.
  assert (A : Rabs r = r \/ Rabs r = - r) by (destruct (Rle_or_lt 0 r); [left; apply Rabs_right|right; apply Rabs_left]; lra).
  pose proof (Rabs_pos r).
  assert (M : forall a, - r <= Rmax (- r) a /\ a <= Rmax (- r) a) by (intros; split; [apply Rmax_l|apply Rmax_r]).
  destruct (ordv e) as [a|] eqn:He.
  - specialize (M a). destruct (Rlt_bool_spec a r); [rewrite He|rewrite Hm]; rb;
    (eexists; split; [first [exact He | exact Hm | rewrite opp_ord, Hm; reflexivity]|]);
    (split; [destruct A; lra|]); (split; [intros ? [= <-]; lra|]); (split; [intros ? [= <-]; lra|]);
    (split; [intros ? [= <-]; lra|]); (split; [discriminate|]); intros; lra.
  - rewrite Hm. rb; (eexists; split; [first [exact Hm | rewrite opp_ord, Hm; reflexivity]|]);
    (split; [destruct A; lra|]); (split; [discriminate|]); (split; [discriminate|]); (split; [discriminate|]);
    split; intros; destruct A; lra.
Qed.

Lemma clamp_low m e r : ordv m = Some r ->
  exists q, ordv (nmin m (nmax (nopp m) e)) = Some q /\ - Rabs r <= q <= Rabs r /\
    (forall a, ordv e = Some a -> (Rmin r a <= q)) /\
    (forall a, ordv e = Some a -> a <= r -> - r <= a -> q = a) /\
    (forall a, ordv e = Some a -> a <= - r -> - r <= r -> q = - r) /\
    (ordv e = None -> q = - Rabs r) /\ (r < 0 -> q = r).
Proof.
  intros Hm. unfold nmax, nmin. rewrite !ltb_ord, opp_ord, Hm.
  assert (A : Rabs r = r \/ Rabs r = - r) by (destruct (Rle_or_lt 0 r); [left; apply Rabs_right|right; apply Rabs_left]; lra).
  pose proof (Rabs_pos r).
  assert (M : forall a, Rmin r a <= r /\ Rmin r a <= a) by (intros; split; [apply Rmin_l|apply Rmin_r]).
  destruct (ordv e) as [a|] eqn:He.
  - specialize (M a). destruct (Rlt_bool_spec (- r) a); [rewrite He|rewrite opp_ord, Hm]; rb;
    (eexists; split; [first [exact He | exact Hm | rewrite opp_ord, Hm; reflexivity]|]);
    (split; [destruct A; lra|]); (split; [intros ? [= <-]; lra|]); (split; [intros ? [= <-]; lra|]);
    (split; [intros ? [= <-]; lra|]); (split; [discriminate|]); intros; lra.
  - rewrite opp_ord, Hm. rb; (eexists; split; [first [exact Hm | rewrite opp_ord, Hm; reflexivity]|]);
    (split; [destruct A; lra|]); (split; [discriminate|]); (split; [discriminate|]); (split; [discriminate|]);
    split; intros; destruct A; lra.
Qed.

(** the velocity bounds of the code *)
Definition vel_bounds (j : jointstate T) (u : ujoint T) (sf : jsafety T) (lm : jlimits T) : T * T :=
  if calibrated j && (jtype_eqb (uj_type u) JREVOLUTE || jtype_eqb (uj_type u) JPRISMATIC) then
    (nmin (lim_velocity lm) (nmax (nopp (lim_velocity lm)) (nmul (nopp (k_position sf)) (nsub (position j) (soft_lower sf)))),
     nmax (nopp (lim_velocity lm)) (nmin (lim_velocity lm) (nmul (nopp (k_position sf)) (nsub (position j) (soft_upper sf)))))
  else (nopp (lim_velocity lm), lim_velocity lm).

Definition lowexpr j u sf lm := nmul (nopp (k_velocity sf)) (nsub (velocity j) (fst (vel_bounds j u sf lm))).
Definition highexpr j u sf lm := nmul (nopp (k_velocity sf)) (nsub (velocity j) (snd (vel_bounds j u sf lm))).

Lemma getLimits_eq (j : jointstate T) u sf lm : has_safety j u sf lm ->
  getLimits j = Ok (nmin (lim_effort lm) (nmax (nopp (lim_effort lm)) (lowexpr j u sf lm)),
                    nmax (nopp (lim_effort lm)) (nmin (lim_effort lm) (highexpr j u sf lm))).
Proof.
  intros [A [B C]]. unfold getLimits, lowexpr, highexpr, vel_bounds. rewrite A, B, C.
  destruct (calibrated j && _); reflexivity.
Qed.

Lemma enforce_shape (j j' : jointstate T) lo hi : getLimits j = Ok (lo, hi) -> enforceLimits j = Ok j' ->
  commanded_effort j' = nmin (nmax (commanded_effort j) lo) hi /\ same_but_command j j'.
Proof.
  unfold enforceLimits. intros ->. simpl. intros [= <-]. split; [reflexivity|].
  unfold same_but_command; simpl; tauto.
Qed.

Lemma enforce_cmd_bounds (c lo hi : T) (rc rlo rhi : R) : ordv c = Some rc -> ordv lo = Some rlo -> ordv hi = Some rhi ->
  exists q, ordv (nmin (nmax c lo) hi) = Some q /\ q <= rhi /\ (rlo <= rhi -> rlo <= q) /\ (q = rlo \/ q = rhi \/ q = rc) /\ (rhi < rlo -> q = rhi).
Proof.
  intros Hc Hl Hh. unfold nmin, nmax. rewrite !ltb_ord, Hc, Hl, Hh.
  destruct (Rlt_bool_spec rc rlo); [rewrite Hl|rewrite Hc]; rb; eexists; (split; [eassumption|]); repeat split; auto; lra.
Qed.

Lemma within_unchanged (c lo hi : T) : nleb lo c = true -> nleb c hi = true -> nmin (nmax c lo) hi = c.
Proof.
  rewrite !leb_ord. unfold nmin, nmax. intros A B.
  destruct (ordv lo) as [l|] eqn:L; try discriminate.
  destruct (ordv c) as [x|] eqn:C; try discriminate. destruct (ordv hi) as [h|] eqn:Hh; try discriminate.
  rewrite !ltb_ord, L, C. destruct (Rlt_bool_spec x l).
  - apply Rle_bool_true_iff in A || (destruct (Rle_bool_spec l x); [lra|discriminate]).
  - rewrite Hh, C. destruct (Rlt_bool_spec h x); auto. destruct (Rle_bool_spec x h); [lra|discriminate].
Qed.

Lemma fmin_ord a b : ordv (nfmin a b) =
  match ordv a, ordv b with Some x, Some y => Some (Rmin x y) | Some x, None => Some x | None, y => y end.
Proof.
  unfold nfmin. rewrite !isnan_ord, ltb_ord. destruct (ordv a) as [x|] eqn:A; destruct (ordv b) as [y|] eqn:B; auto.
  rb; [rewrite A|rewrite B]; f_equal; [rewrite Rmin_left|rewrite Rmin_right]; lra.
Qed.
Lemma fmax_ord a b : ordv (nfmax a b) =
  match ordv a, ordv b with Some x, Some y => Some (Rmax x y) | Some x, None => Some x | None, y => y end.
Proof.
  unfold nfmax. rewrite !isnan_ord, ltb_ord. destruct (ordv a) as [x|] eqn:A; destruct (ordv b) as [y|] eqn:B; auto.
  rb; [rewrite B|rewrite A]; f_equal; [rewrite Rmax_right|rewrite Rmax_left]; lra.
Qed.
End Generic.

Lemma not_nan_ord (x : B64) : not_nan x <-> exists r, b64_ord x = Some r.
Proof. unfold not_nan. destruct x; simpl; split; try discriminate; eauto; intros [? A]; discriminate. Qed.
Lemma fle_ord (x y : B64) a b : b64_ord x = Some a -> b64_ord y = Some b -> (fle x y <-> a <= b).
Proof.
  intros A B. unfold fle. rewrite b64_leb_ord, A, B. destruct (Rle_bool_spec a b); split; auto; try discriminate; lra.
Qed.
Lemma fle_inv (x y : B64) : fle x y -> exists a b, b64_ord x = Some a /\ b64_ord y = Some b /\ a <= b.
Proof.
  unfold fle. rewrite b64_leb_ord. destruct (b64_ord x) as [a|]; try discriminate. destruct (b64_ord y) as [b|]; try discriminate.
  destruct (Rle_bool_spec a b); try discriminate. eauto.
Qed.

(** velocity bounds over binary64 are ordered *)
Lemma b64_bounds_ordered (k m x lo hi : B64) (rm : R) : finite k -> fle f0 k -> b64_ord m = Some rm -> fle lo hi ->
  forall ql qh,
  b64_ord (nmin m (nmax (nopp m) (nmul (nopp k) (nsub x lo)))) = Some ql ->
  b64_ord (nmax (nopp m) (nmin m (nmul (nopp k) (nsub x hi)))) = Some qh -> ql <= qh.
Proof.
  intros Fk Pk Hm Hlh ql qh Hl Hh.
  destruct (fle_inv _ _ Hlh) as [rl [rh [Ol [Oh L]]]].
  destruct (fle_inv _ _ Pk) as [z [rk [Oz [Ok' Lk]]]]. injection Oz as <-.
  rewrite b64_ord_finite in Ok' by exact Fk. injection Ok' as <-.
  destruct (clamp_low (O := ord_B64) m (nmul (nopp k) (nsub x lo)) rm Hm) as [q1 [E1 [B1 [C1 [D1 [F1 [G1 I1]]]]]]].
  destruct (clamp_high (O := ord_B64) m (nmul (nopp k) (nsub x hi)) rm Hm) as [q2 [E2 [B2 [C2 [D2 [F2 [G2 I2]]]]]]].
  unfold ordv, ord_B64 in *. rewrite Hl in E1. rewrite Hh in E2. injection E1 as <-. injection E2 as <-.
  destruct (b64_ord (nmul (nopp k) (nsub x lo))) as [a|] eqn:Ea; [|specialize (G1 eq_refl); lra].
  destruct (b64_ord (nmul (nopp k) (nsub x hi))) as [b|] eqn:Eb; [|specialize (G2 eq_refl); lra].
  simpl in Ea, Eb.
  destruct (b64_mult_nan _ _ _ Ea) as [? [s1 [_ S1]]]. destruct (b64_mult_nan _ _ _ Eb) as [? [s2 [_ S2]]].
  assert (s2 <= s1) by (eapply b64_minus_mono; [exact Ol|exact Oh| |exact S1|exact S2]; auto).
  assert (a <= b) by (eapply b64_negmult_mono; [exact Fk|lra|exact S2|exact S1| |exact Eb|exact Ea]; auto).
  clear - B1 B2 C1 C2 D1 D2 F1 F2 I1 I2 H0.
  assert (A : Rabs rm = rm /\ 0 <= rm \/ Rabs rm = - rm /\ rm < 0)
    by (destruct (Rle_or_lt 0 rm); [left; split; [apply Rabs_right|]|right; split; [apply Rabs_left|]]; lra).
  destruct A as [[A P]|[A P]]; rewrite A in *.
  - destruct (Rle_or_lt a (- rm)) as [La|La].
    + rewrite (F1 a eq_refl La ltac:(lra)). lra.
    + destruct (Rle_or_lt rm b) as [Lb|Lb].
      * rewrite (F2 b eq_refl Lb ltac:(lra)). lra.
      * rewrite (D1 a eq_refl), (D2 b eq_refl); lra.
  - rewrite I1, I2; lra.
Qed.

Lemma b64_vel_bounds_ordered (j : jointstate B64) u sf lm rv :
  b64_ord (lim_velocity lm) = Some rv ->
  (position_watched j u -> finite (k_position sf) /\ fle f0 (k_position sf) /\ fle (soft_lower sf) (soft_upper sf)) ->
  (~ position_watched j u -> 0 <= rv) ->
  exists a b, b64_ord (fst (vel_bounds j u sf lm)) = Some a /\ b64_ord (snd (vel_bounds j u sf lm)) = Some b /\ a <= b.
Proof.
  intros Hv W NW. unfold vel_bounds.
  destruct (calibrated j && (jtype_eqb (uj_type u) JREVOLUTE || jtype_eqb (uj_type u) JPRISMATIC)) eqn:E.
  - assert (P : position_watched j u).
    { apply andb_prop in E. destruct E as [E1 E2]. split; auto. apply orb_prop in E2.
      destruct E2; [left|right]; destruct (uj_type u); try discriminate; auto. }
    destruct (W P) as [Fk [Pk L]].
    destruct (clamp_low (O := ord_B64) (lim_velocity lm) (nmul (nopp (k_position sf)) (nsub (position j) (soft_lower sf))) rv Hv) as [a [Ea _]].
    destruct (clamp_high (O := ord_B64) (lim_velocity lm) (nmul (nopp (k_position sf)) (nsub (position j) (soft_upper sf))) rv Hv) as [b [Eb _]].
    exists a, b. split; [exact Ea|]. split; [exact Eb|].
    eapply b64_bounds_ordered; [exact Fk|exact Pk|exact Hv|exact L|exact Ea|exact Eb].
  - exists (- rv), rv. cbn [fst snd]. split; [|split; [exact Hv|]].
    + pose proof (opp_ord (NumOrd := ord_B64) (lim_velocity lm)) as OO. simpl in OO. simpl. rewrite OO, Hv. reflexivity.
    + enough (0 <= rv) by lra. apply NW. intros [P1 P2].
      rewrite P1 in E. destruct P2 as [P2|P2]; rewrite P2 in E; discriminate.
Qed.
