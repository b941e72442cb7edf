(** C36, C37: joint statistics (JointStatistics::update, reset) over every sampling history. *)
From Coq Require Import List Bool Reals ZArith Lra Lia String.
From Flocq Require Import Core.Core IEEE754.BinarySingleNaN.
From Verif.Model Require Import Base Num Joint.
From Verif.Spec Require Import JointSpec.
From Verif.Proofs Require Import NumFacts JointProofs.
Import ListNotations.
Local Open Scope R_scope.

Section Gen.
Context {T : Type} {N : Num T} {O : NumOrd T}.

Lemma hist_snoc_sample h j (s' : jstats T) : history_yields N (h ++ [Sampled j]) s' ->
  exists s, history_yields N h s /\ stats_update s j = Ok s'.
Proof.
  intros H. inversion H as [g E|h0 s j0 s0 A B E|h0 s A E].
  - destruct h; discriminate.
  - apply app_inj_tail in E. destruct E as [-> [= ->]]. eauto.
  - apply app_inj_tail in E. destruct E; discriminate.
Qed.
Lemma hist_snoc_publish h (s' : jstats T) : history_yields N (h ++ [Published]) s' ->
  exists s, history_yields N h s /\ s' = stats_reset s.
Proof.
  intros H. inversion H as [g E|h0 s j0 s0 A B E|h0 s A E].
  - destruct h; discriminate.
  - apply app_inj_tail in E. destruct E; discriminate.
  - apply app_inj_tail in E. destruct E as [-> _]. eauto.
Qed.

Lemma update_initialized (s s' : jstats T) j : stats_update s j = Ok s' -> js_initialized s' = true /\ old_position s' = position j.
Proof.
  unfold stats_update. destruct (js_initialized s) eqn:E.
  - destruct (js_joint j); try discriminate. simpl.
    match goal with |- context [if ?b then _ else _] => destruct b end; simpl; intros [= <-]; simpl; auto.
  - simpl. intros [= <-]. simpl. auto.
Qed.

Lemma hist_initialized h (s : jstats T) : history_yields N h s -> js_initialized s = true <-> exists j, In (Sampled j) h.
Proof.
  intros H. induction H as [g|h s j s' H IH U|h s H IH].
  - simpl. split; [discriminate|intros [j []]].
  - apply update_initialized in U. destruct U as [U _]. split; auto. intros _. exists j. apply in_or_app. simpl. auto.
  - assert (E : js_initialized (stats_reset s) = js_initialized s) by reflexivity. rewrite E, IH. split.
    + intros [j Hj]. exists j. apply in_or_app. auto.
    + intros [j Hj]. apply in_app_or in Hj. destruct Hj as [Hj|[Hj|[]]]; [eauto|discriminate].
Qed.

Lemma update_fields (s s' : jstats T) j : js_initialized s = true -> stats_update s j = Ok s' ->
  exists u, js_joint j = Some u /\
  odometer s' = nadd (odometer s) (nabs (nsub (old_position s) (position j))) /\
  min_position s' = nfmin (position j) (min_position s) /\
  max_position s' = nfmax (position j) (max_position s) /\
  max_abs_velocity s' = nfmax (nabs (velocity j)) (max_abs_velocity s) /\
  max_abs_effort s' = nfmax (nabs (measured_effort j)) (max_abs_effort s) /\
  (violated_limits s' = true <-> violated_limits s = true \/
     (uj_safety u <> None /\ uj_limits u <> None /\ nltb (nabs (measured_effort j)) (nabs (commanded_effort j)) = true)).
Proof.
  unfold stats_update. intros ->. destruct (js_joint j) as [u|]; try discriminate. simpl.
  intros E. exists u. split; [reflexivity|].
  destruct (uj_safety u) eqn:E1; destruct (uj_limits u) eqn:E2; simpl in E;
    try (injection E as <-; simpl; repeat (split; [reflexivity|]); split; [auto|intros [?|[? [? ?]]]; auto; congruence]).
  destruct (nltb (nabs (measured_effort j)) (nabs (commanded_effort j))) eqn:E3; injection E as <-; simpl;
    repeat (split; [reflexivity|]); split; auto.
  - intros _. right. repeat split; congruence.
  - intros [?|[? [? ?]]]; auto. discriminate.
Qed.

(** a window of samples after a reset *)
Definition window_inv (s0 s : jstats T) (w : list (jointstate T)) : Prop :=
  js_initialized s = true /\
  (forall j p, In j w -> ordv (position j) = Some p ->
     (exists a, ordv (min_position s) = Some a /\ a <= p) /\ (exists b, ordv (max_position s) = Some b /\ p <= b)) /\
  (min_position s = max_position s0 \/ exists j, In j w /\ min_position s = position j) /\
  (max_position s = min_position s0 \/ exists j, In j w /\ max_position s = position j) /\
  (exists v, ordv (max_abs_velocity s) = Some v /\ 0 <= v /\
     (forall j x, In j w -> ordv (velocity j) = Some x -> Rabs x <= v) /\
     (v = 0 \/ exists j x, In j w /\ ordv (velocity j) = Some x /\ v = Rabs x)) /\
  (exists v, ordv (max_abs_effort s) = Some v /\ 0 <= v /\
     (forall j x, In j w -> ordv (measured_effort j) = Some x -> Rabs x <= v) /\
     (v = 0 \/ exists j x, In j w /\ ordv (measured_effort j) = Some x /\ v = Rabs x)) /\
  (violated_limits s = true <-> exists j u, In j w /\ js_joint j = Some u /\ uj_safety u <> None /\ uj_limits u <> None /\
     nltb (nabs (measured_effort j)) (nabs (commanded_effort j)) = true).

Lemma fmin_either (a b : T) : nfmin a b = a \/ nfmin a b = b.
Proof. unfold nfmin. destruct (nisnan a); auto. destruct (nisnan b); auto. destruct (nltb a b); auto. Qed.
Lemma fmax_either (a b : T) : nfmax a b = a \/ nfmax a b = b.
Proof. unfold nfmax. destruct (nisnan a); auto. destruct (nisnan b); auto. destruct (nltb a b); auto. Qed.

Lemma absmax_step (get : jointstate T -> T) w j (m m' : T) :
  (exists v, ordv m = Some v /\ 0 <= v /\
     (forall j x, In j w -> ordv (get j) = Some x -> Rabs x <= v) /\
     (v = 0 \/ exists j x, In j w /\ ordv (get j) = Some x /\ v = Rabs x)) ->
  m' = nfmax (nabs (get j)) m ->
  exists v, ordv m' = Some v /\ 0 <= v /\
     (forall k x, In k (w ++ [j]) -> ordv (get k) = Some x -> Rabs x <= v) /\
     (v = 0 \/ exists k x, In k (w ++ [j]) /\ ordv (get k) = Some x /\ v = Rabs x).
Proof.
  intros [v [Hv [Pv [B A]]]] ->. rewrite fmax_ord, abs_ord, Hv.
  destruct (ordv (get j)) as [x|] eqn:Ex.
  - exists (Rmax (Rabs x) v). split; [reflexivity|].
    pose proof (Rmax_l (Rabs x) v). pose proof (Rmax_r (Rabs x) v). split; [lra|]. split.
    + intros k y Hk Hy. apply in_app_or in Hk. destruct Hk as [Hk|[<-|[]]].
      * specialize (B k y Hk Hy). lra.
      * rewrite Ex in Hy. injection Hy as <-. lra.
    + apply Rmax_case_strong; intros L.
      * right. exists j, x. split; [apply in_or_app; simpl; auto|]. auto.
      * destruct A as [A|[k [y [K1 [K2 K3]]]]]; [auto|]. right. exists k, y. split; [apply in_or_app; auto|]. auto.
  - exists v. split; [reflexivity|]. split; [exact Pv|]. split.
    + intros k y Hk Hy. apply in_app_or in Hk. destruct Hk as [Hk|[<-|[]]]; [eauto|congruence].
    + destruct A as [A|[k [y [K1 [K2 K3]]]]]; [auto|]. right. exists k, y. split; [apply in_or_app; auto|]. auto.
Qed.

Lemma window_step s0 s s' w j : window_inv s0 s w -> stats_update s j = Ok s' -> window_inv s0 s' (w ++ [j]).
Proof.
  intros [I [P [Mn [Mx [V [E Vi]]]]]] U.
  destruct (update_fields s s' j I U) as [u [Hu [_ [Fmin [Fmax [Fv [Fe Fvi]]]]]]].
  apply update_initialized in U. destruct U as [U _].
  split; [exact U|]. split; [|split; [|split; [|split; [|split]]]].
  - intros k p Hk Hp. rewrite Fmin, Fmax, fmin_ord, fmax_ord. apply in_app_or in Hk. destruct Hk as [Hk|[<-|[]]].
    + destruct (P k p Hk Hp) as [[a [A1 A2]] [b [B1 B2]]]. rewrite A1, B1.
      destruct (ordv (position j)) as [q|].
      * split; eexists; (split; [reflexivity|]); [pose proof (Rmin_r q a)|pose proof (Rmax_r q b)]; lra.
      * split; eexists; (split; [reflexivity|]); lra.
    + rewrite Hp. destruct (ordv (min_position s)) as [a|]; destruct (ordv (max_position s)) as [b|]; split; eexists; (split; [reflexivity|]);
        try lra; try apply Rmin_l; try apply Rmax_l.
  - destruct (fmin_either (position j) (min_position s)) as [E1|E1]; rewrite Fmin, E1.
    + right. exists j. split; [apply in_or_app; simpl; auto|reflexivity].
    + destruct Mn as [Mn|[k [K1 K2]]]; [auto|]. right. exists k. split; [apply in_or_app; auto|auto].
  - destruct (fmax_either (position j) (max_position s)) as [E1|E1]; rewrite Fmax, E1.
    + right. exists j. split; [apply in_or_app; simpl; auto|reflexivity].
    + destruct Mx as [Mx|[k [K1 K2]]]; [auto|]. right. exists k. split; [apply in_or_app; auto|auto].
  - apply (absmax_step velocity w j _ _ V Fv).
  - apply (absmax_step measured_effort w j _ _ E Fe).
  - rewrite Fvi, Vi. split.
    + intros [[k [u' [K1 [K2 [K3 [K4 K5]]]]]]|[K1 [K2 K3]]].
      * exists k, u'. split; [apply in_or_app; auto|auto].
      * exists j, u. split; [apply in_or_app; simpl; auto|auto].
    + intros [k [u' [K1 [K2 [K3 [K4 K5]]]]]]. apply in_app_or in K1. destruct K1 as [K1|[<-|[]]].
      * left. exists k, u'. auto.
      * right. rewrite Hu in K2. injection K2 as <-. auto.
Qed.

Lemma window_hist pre w (s : jstats T) : history_yields N (pre ++ Published :: map Sampled w) s ->
  (exists j, In (Sampled j) pre) ->
  exists s0, history_yields N pre s0 /\ window_inv s0 s w.
Proof.
  intros H Hin. revert s H. induction w as [|j w IH] using rev_ind; intros s H.
  - simpl in H. apply hist_snoc_publish in H. destruct H as [s0 [H ->]].
    exists s0. split; [exact H|]. pose proof (proj2 (hist_initialized pre s0 H) Hin) as I.
    split; [exact I|]. split; [intros j p []|]. split; [auto|]. split; [auto|].
    split; [exists 0; split; [apply zero_ord|split; [lra|split; [intros j x []|auto]]]|].
    split; [exists 0; split; [apply zero_ord|split; [lra|split; [intros j x []|auto]]]|].
    split; [discriminate|]. intros [j [u [[] _]]].
  - rewrite map_app in H. simpl in H.
    replace (pre ++ Published :: map Sampled w ++ [Sampled j]) with ((pre ++ Published :: map Sampled w) ++ [Sampled j]) in H
      by (rewrite <- app_assoc; reflexivity).
    apply hist_snoc_sample in H. destruct H as [s1 [H U]].
    destruct (IH s1 H) as [s0 [H0 W]]. exists s0. split; [exact H0|]. eapply window_step; eauto.
Qed.
End Gen.

(** C36 (binary64): after any history [pre] containing a sample, a publication and further samples [w], the reported range
    contains every sampled position that is a number, and the reported maxima bound the samples and are attained. *)
Theorem C36_statistics_bound_samples : forall pre w (s : jstats B64),
  history_yields num_b64 (pre ++ Published :: map Sampled w) s ->
  (exists j, In (Sampled j) pre) ->
  (forall j, In j w -> not_nan (position j) -> fle (min_position s) (position j) /\ fle (position j) (max_position s)) /\
  (forall j, In j w -> not_nan (velocity j) -> fle (Babs (velocity j)) (max_abs_velocity s)) /\
  (forall j, In j w -> not_nan (measured_effort j) -> fle (Babs (measured_effort j)) (max_abs_effort s)) /\
  ((exists j, In j w /\ Beqb (max_abs_velocity s) (Babs (velocity j)) = true) \/ Beqb (max_abs_velocity s) f0 = true) /\
  ((exists j, In j w /\ Beqb (max_abs_effort s) (Babs (measured_effort j)) = true) \/ Beqb (max_abs_effort s) f0 = true).
Proof.
  intros pre w s H Hin. destruct (window_hist pre w s H Hin) as [s0 [_ [_ [P [_ [_ [[v [V0 [V1 [V2 V3]]]] [[e [E0 [E1 [E2 E3]]]] _]]]]]]]].
  assert (Ex : forall m (r : R) (g : jointstate B64 -> B64),
    b64_ord m = Some r -> (r = 0 \/ exists j x, In j w /\ b64_ord (g j) = Some x /\ r = Rabs x) ->
    (exists j, In j w /\ Beqb m (Babs (g j)) = true) \/ Beqb m f0 = true).
  { intros m r g Hm [->|[j [x [J1 [J2 J3]]]]].
    - right. rewrite b64_eqb_ord, Hm. simpl. apply Req_bool_true. reflexivity.
    - left. exists j. split; auto. rewrite b64_eqb_ord, Hm, b64_abs_ord, J2. apply Req_bool_true. exact J3. }
  split; [|split; [|split; [|split]]].
  - intros j Hj Hn. apply not_nan_ord in Hn. destruct Hn as [p Hp].
    destruct (P j p Hj Hp) as [[a [A1 A2]] [b [B1 B2]]]. split.
    + rewrite (fle_ord _ _ a p); auto.
    + rewrite (fle_ord _ _ p b); auto.
  - intros j Hj Hn. apply not_nan_ord in Hn. destruct Hn as [x Hx].
    rewrite (fle_ord _ _ (Rabs x) v); [apply (V2 j x Hj Hx)|rewrite b64_abs_ord, Hx; reflexivity|exact V0].
  - intros j Hj Hn. apply not_nan_ord in Hn. destruct Hn as [x Hx].
    rewrite (fle_ord _ _ (Rabs x) e); [apply (E2 j x Hj Hx)|rewrite b64_abs_ord, Hx; reflexivity|exact E0].
  - apply (Ex _ v velocity V0 V3).
  - apply (Ex _ e measured_effort E0 E3).
Qed.

(** What the reported range is exactly: its ends are sampled positions, or the opposite end of the range that was
    reported last (the reset swaps them). *)
Theorem C36_range_ends : forall pre w (s : jstats R),
  history_yields num_R (pre ++ Published :: map Sampled w) s ->
  (exists j, In (Sampled j) pre) ->
  exists s0, history_yields num_R pre s0 /\
  (forall j, In j w -> min_position s <= position j <= max_position s) /\
  (min_position s = max_position s0 \/ exists j, In j w /\ min_position s = position j) /\
  (max_position s = min_position s0 \/ exists j, In j w /\ max_position s = position j).
Proof.
  intros pre w s H Hin. destruct (window_hist pre w s H Hin) as [s0 [H0 [_ [P [A [B _]]]]]].
  exists s0. split; [exact H0|]. split; [|split; auto].
  intros j Hj. destruct (P j (position j) Hj eq_refl) as [[a [A1 A2]] [b [B1 B2]]].
  simpl in A1, B1. injection A1 as <-. injection B1 as <-. lra.
Qed.

(** Until the first publication the range is exact, but the velocity and effort of the very first sample do not count. *)
Theorem C36_before_first_publication : forall j0 w (s : jstats R),
  history_yields num_R (map Sampled (j0 :: w)) s ->
  (forall j, In j (j0 :: w) -> min_position s <= position j <= max_position s) /\
  (exists j, In j (j0 :: w) /\ min_position s = position j) /\
  (exists j, In j (j0 :: w) /\ max_position s = position j) /\
  (forall j, In j w -> Rabs (velocity j) <= max_abs_velocity s /\ Rabs (measured_effort j) <= max_abs_effort s) /\
  (max_abs_velocity s = 0 \/ exists j, In j w /\ max_abs_velocity s = Rabs (velocity j)) /\
  (max_abs_effort s = 0 \/ exists j, In j w /\ max_abs_effort s = Rabs (measured_effort j)).
Proof.
  intros j0 w s H.
  cut (js_initialized s = true /\
  ((forall j, In j (j0 :: w) -> min_position s <= position j <= max_position s) /\
  (exists j, In j (j0 :: w) /\ min_position s = position j) /\
  (exists j, In j (j0 :: w) /\ max_position s = position j) /\
  (forall j, In j w -> Rabs (velocity j) <= max_abs_velocity s /\ Rabs (measured_effort j) <= max_abs_effort s) /\
  (max_abs_velocity s = 0 \/ exists j, In j w /\ max_abs_velocity s = Rabs (velocity j)) /\
  (max_abs_effort s = 0 \/ exists j, In j w /\ max_abs_effort s = Rabs (measured_effort j)))); [tauto|].
  revert s H. induction w as [|j w IH] using rev_ind; intros s H.
  - change (map Sampled [j0]) with ([] ++ [Sampled j0]) in H. apply hist_snoc_sample in H.
    destruct H as [s0 [H U]]. inversion H as [g E| |]; subst; try (destruct h; discriminate).
    unfold stats_update in U. simpl in U. injection U as <-. simpl.
    split; auto. split; [intros j [<-|[]]; lra|]. split; [eauto|]. split; [eauto|]. split; [intros j []|]. auto.
  - change (map Sampled (j0 :: w ++ [j])) with (Sampled j0 :: map Sampled (w ++ [j])) in H. rewrite map_app in H.
    change (Sampled j0 :: map Sampled w ++ map Sampled [j]) with (map Sampled (j0 :: w) ++ [Sampled j]) in H.
    apply hist_snoc_sample in H. destruct H as [s1 [H U]].
    destruct (IH s1 H) as [I [P [[jm [M1 M2]] [[jx [X1 X2]] [V [A B]]]]]].
    destruct (update_fields s1 s j I U) as [u [Hu [_ [Fmin [Fmax [Fv [Fe _]]]]]]].
    assert (Emin : min_position s = Rmin (position j) (min_position s1)).
    { pose proof (fmin_ord (O := ord_R) (position j) (min_position s1)) as Q. simpl in Q. rewrite Fmin. congruence. }
    assert (Emax : max_position s = Rmax (position j) (max_position s1)).
    { pose proof (fmax_ord (O := ord_R) (position j) (max_position s1)) as Q. simpl in Q. rewrite Fmax. congruence. }
    assert (Ev : max_abs_velocity s = Rmax (Rabs (velocity j)) (max_abs_velocity s1)).
    { pose proof (fmax_ord (O := ord_R) (Rabs (velocity j)) (max_abs_velocity s1)) as Q. simpl in Q. rewrite Fv. simpl. congruence. }
    assert (Ee : max_abs_effort s = Rmax (Rabs (measured_effort j)) (max_abs_effort s1)).
    { pose proof (fmax_ord (O := ord_R) (Rabs (measured_effort j)) (max_abs_effort s1)) as Q. simpl in Q. rewrite Fe. simpl. congruence. }
    apply update_initialized in U. destruct U as [U _]. split; [exact U|].
    pose proof (Rmin_l (position j) (min_position s1)). pose proof (Rmin_r (position j) (min_position s1)).
    pose proof (Rmax_l (position j) (max_position s1)). pose proof (Rmax_r (position j) (max_position s1)).
    split; [|split; [|split; [|split; [|split]]]].
    + intros k [<-|Hk]; [specialize (P j0 (or_introl eq_refl)); lra|].
      apply in_app_or in Hk. destruct Hk as [Hk|[<-|[]]]; [specialize (P k (or_intror Hk)); lra|lra].
    + rewrite Emin. apply Rmin_case.
      * exists j. split; [right; apply in_or_app; simpl; auto|reflexivity].
      * exists jm. split; [destruct M1 as [M1|M1]; [left; auto|right; apply in_or_app; auto]|auto].
    + rewrite Emax. apply Rmax_case.
      * exists j. split; [right; apply in_or_app; simpl; auto|reflexivity].
      * exists jx. split; [destruct X1 as [X1|X1]; [left; auto|right; apply in_or_app; auto]|auto].
    + rewrite Ev, Ee. intros k Hk.
      pose proof (Rmax_l (Rabs (velocity j)) (max_abs_velocity s1)). pose proof (Rmax_r (Rabs (velocity j)) (max_abs_velocity s1)).
      pose proof (Rmax_l (Rabs (measured_effort j)) (max_abs_effort s1)). pose proof (Rmax_r (Rabs (measured_effort j)) (max_abs_effort s1)).
      apply in_app_or in Hk. destruct Hk as [Hk|[<-|[]]]; [specialize (V k Hk); lra|lra].
    + rewrite Ev. apply Rmax_case; [right; exists j; split; [apply in_or_app; simpl; auto|auto]|].
      destruct A as [A|[k [K1 K2]]]; [auto|]. right. exists k. split; [apply in_or_app; auto|auto].
    + rewrite Ee. apply Rmax_case; [right; exists j; split; [apply in_or_app; simpl; auto|auto]|].
      destruct B as [B|[k [K1 K2]]]; [auto|]. right. exists k. split; [apply in_or_app; auto|auto].
Qed.

(** Odometer: the total absolute displacement over the whole history; publications do not reset it. *)
Definition sampled_positions (h : list (stat_op R)) : list R :=
  flat_map (fun o => match o with Sampled j => [position j] | Published => [] end) h.

Lemma displacement_snoc l : forall p q, displacement p (l ++ [q]) = displacement p l + Rabs (last (p :: l) 0 - q).
Proof.
  induction l as [|x l IH]; intros p q.
  - simpl. ring.
  - change (displacement p ((x :: l) ++ [q])) with (Rabs (p - x) + displacement x (l ++ [q])).
    rewrite IH. change (displacement p (x :: l)) with (Rabs (p - x) + displacement x l).
    change (last (p :: x :: l) 0) with (last (x :: l) 0). ring.
Qed.

Theorem C36_odometer : forall h (s : jstats R), history_yields num_R h s ->
  odometer s = match sampled_positions h with [] => 0 | p :: l => displacement p l end.
Proof.
  intros h s H.
  cut (odometer s = match sampled_positions h with [] => 0 | p :: l => displacement p l end /\
       (js_initialized s = false -> sampled_positions h = []) /\
       (js_initialized s = true -> sampled_positions h <> [] /\ old_position s = last (sampled_positions h) 0)); [tauto|].
  induction H as [g|h s j s' H [IH [I0 I1]] U|h s H [IH [I0 I1]]].
  - simpl. split; [reflexivity|]. split; [auto|discriminate].
  - unfold sampled_positions. rewrite flat_map_app. fold (sampled_positions h). simpl.
    pose proof (update_initialized s s' j U) as [Ui Uo].
    split; [|split; [congruence|]].
    + destruct (js_initialized s) eqn:Ei.
      * destruct (update_fields s s' j Ei U) as [u [_ [Od _]]]. simpl in Od. rewrite Od, IH.
        destruct (I1 eq_refl) as [Ne Ol]. destruct (sampled_positions h) as [|p l]; [congruence|].
        change (displacement p l + Rabs (old_position s - position j) = displacement p (l ++ [position j])).
        rewrite displacement_snoc, Ol. reflexivity.
      * rewrite (I0 eq_refl) in *. simpl. unfold stats_update in U. rewrite Ei in U. simpl in U. injection U as <-. simpl. exact IH.
    + intros _. split; [destruct (sampled_positions h); discriminate|]. rewrite last_last. exact Uo.
  - unfold sampled_positions. rewrite flat_map_app. fold (sampled_positions h). simpl. rewrite app_nil_r.
    split; [exact IH|]. split; auto.
Qed.

(** C37: the flag is raised exactly by a sample with limits and safety whose commanded effort exceeds the measured one in
    absolute value, and is cleared by a publication. *)
Theorem C37_violated_limits : forall pre w (s : jstats B64),
  history_yields num_b64 (pre ++ Published :: map Sampled w) s ->
  (exists j, In (Sampled j) pre) ->
  (violated_limits s = true <->
   exists j u, In j w /\ js_joint j = Some u /\ uj_safety u <> None /\ uj_limits u <> None /\
     flt (Babs (measured_effort j)) (Babs (commanded_effort j))).
Proof.
  intros pre w s H Hin. destruct (window_hist pre w s H Hin) as [s0 [_ [_ [_ [_ [_ [_ [_ V]]]]]]]]. exact V.
Qed.

(** Before the first publication the very first sample does not count. *)
Theorem C37_before_first_publication : forall j0 w (s : jstats B64),
  history_yields num_b64 (map Sampled (j0 :: w)) s ->
  (violated_limits s = true <->
   exists j u, In j w /\ js_joint j = Some u /\ uj_safety u <> None /\ uj_limits u <> None /\
     flt (Babs (measured_effort j)) (Babs (commanded_effort j))).
Proof.
  intros j0 w s H.
  cut (js_initialized s = true /\ (violated_limits s = true <->
   exists j u, In j w /\ js_joint j = Some u /\ uj_safety u <> None /\ uj_limits u <> None /\
     flt (Babs (measured_effort j)) (Babs (commanded_effort j)))); [tauto|].
  revert s H. induction w as [|j w IH] using rev_ind; intros s H.
  - change (map Sampled [j0]) with ([] ++ [Sampled j0]) in H. apply hist_snoc_sample in H.
    destruct H as [s0 [H U]]. inversion H as [g E| |]; subst; try (destruct h; discriminate).
    unfold stats_update in U. simpl in U. injection U as <-. simpl. split; auto. split; [discriminate|].
    intros [j [u [[] _]]].
  - change (map Sampled (j0 :: w ++ [j])) with (Sampled j0 :: map Sampled (w ++ [j])) in H. rewrite map_app in H.
    change (Sampled j0 :: map Sampled w ++ map Sampled [j]) with (map Sampled (j0 :: w) ++ [Sampled j]) in H.
    apply hist_snoc_sample in H. destruct H as [s1 [H U]]. destruct (IH s1 H) as [I V].
    destruct (update_fields s1 s j I U) as [u [Hu [_ [_ [_ [_ [_ Fvi]]]]]]].
    apply update_initialized in U. destruct U as [U _]. split; [exact U|].
    rewrite Fvi, V. split.
    + intros [[k [u' [K1 K2]]]|[K1 [K2 K3]]].
      * exists k, u'. split; [apply in_or_app; auto|auto].
      * exists j, u. split; [apply in_or_app; simpl; auto|auto].
    + intros [k [u' [K1 [K2 [K3 [K4 K5]]]]]]. apply in_app_or in K1. destruct K1 as [K1|[<-|[]]].
      * left. exists k, u'. auto.
      * right. rewrite Hu in K2. injection K2 as <-. auto.
Qed.

(** ** The reported range need not be the true one *)
Definition sj (p : R) : jointstate R :=
  mkJointState (Some (mkUjoint "j" JCONTINUOUS None None None)) p 0 0 (new_jstats 0) 0 true 0.

(** A joint samples 0, is published, then only ever samples 5: the next report claims it has been at 0. *)
Theorem C36_range_not_exact : exists pre w s,
  history_yields num_R (pre ++ Published :: map Sampled w) s /\ (exists j, In (Sampled j) pre) /\ w <> [] /\
  (forall j, In j w -> position j = 5) /\ min_position s = 0.
Proof.
  exists [Sampled (sj 0)], [sj 5; sj 5].
  assert (S1 : stats_update (new_jstats 0) (sj 0) = Ok (mkJstats 0 0 0 0 0 false true 0)) by reflexivity.
  destruct (stats_update (stats_reset (mkJstats 0 0 0 0 0 false true 0)) (sj 5)) as [s2| | |] eqn:S2; try discriminate.
  destruct (stats_update s2 (sj 5)) as [s3| | |] eqn:S3.
  2-4: unfold stats_update in S3; destruct (js_initialized s2); discriminate.
  exists s3. split; [|split; [|split; [|split]]].
  - change ([Sampled (sj 0)] ++ Published :: map Sampled [sj 5; sj 5]) with (((([] ++ [Sampled (sj 0)]) ++ [Published]) ++ [Sampled (sj 5)]) ++ [Sampled (sj 5)]).
    apply hy_sample with s2; auto. apply hy_sample with (stats_reset (mkJstats 0 0 0 0 0 false true 0)); auto.
    apply hy_publish. apply hy_sample with (new_jstats 0); [apply hy_new|exact S1].
  - exists (sj 0). simpl. auto.
  - discriminate.
  - intros j [<-|[<-|[]]]; reflexivity.
  - destruct (update_fields _ _ _ (eq_refl : js_initialized (stats_reset (mkJstats 0 0 0 0 0 false true 0)) = true) S2) as [_ [_ [_ [M2 _]]]].
    destruct (update_initialized _ _ _ S2) as [I2 _].
    destruct (update_fields _ _ _ I2 S3) as [_ [_ [_ [M3 _]]]].
    pose proof (fmin_ord (O := ord_R) (position (sj 5)) (min_position s2)) as Q3.
    pose proof (fmin_ord (O := ord_R) (position (sj 5)) (min_position (stats_reset (mkJstats 0 0 0 0 0 false true 0)))) as Q2.
    cbn - [Rmin nfmin] in Q2, Q3. rewrite M3. cbn - [Rmin nfmin]. injection Q3 as ->. rewrite M2. cbn - [Rmin nfmin]. injection Q2 as ->.
    rewrite (Rmin_right 5 0) by lra. apply Rmin_right. lra.
Qed.

(** Non-vacuity of the binary64 statements: a commanded effort above the measured one raises the flag. *)
Definition sjb (p m c : B64) : jointstate B64 :=
  mkJointState (Some (mkUjoint "j" JREVOLUTE (Some (mkSafety nzero nzero nzero nzero)) (Some (mkLimits nzero nzero nzero nzero)) None))
    p nzero m (new_jstats nzero) c true nzero.
Example C37_ex : exists s, history_yields num_b64 ([Sampled (sjb nzero nzero nzero)] ++ Published :: map Sampled [sjb (nofZ 1) (nofZ 2) (nofZ 3)]) s /\
  violated_limits s = true.
Proof.
  destruct (stats_update (new_jstats nzero) (sjb nzero nzero nzero)) as [s1| | |] eqn:S1; try (unfold stats_update in S1; discriminate).
  destruct (stats_update (stats_reset s1) (sjb (nofZ 1) (nofZ 2) (nofZ 3))) as [s2| | |] eqn:S2.
  2-4: exfalso; clear S1; unfold stats_update in S2; destruct (js_initialized (stats_reset s1)); discriminate S2.
  exists s2. split.
  - change ([Sampled (sjb nzero nzero nzero)] ++ Published :: map Sampled [sjb (nofZ 1) (nofZ 2) (nofZ 3)])
      with ((([] ++ [Sampled (sjb nzero nzero nzero)]) ++ [Published]) ++ [Sampled (sjb (nofZ 1) (nofZ 2) (nofZ 3))]).
    apply hy_sample with (stats_reset s1); [apply hy_publish; apply hy_sample with (new_jstats nzero); [apply hy_new|exact S1]|exact S2].
  - assert (E : match stats_update (new_jstats nzero) (sjb nzero nzero nzero) with
                | Ok a => match stats_update (stats_reset a) (sjb (nofZ 1) (nofZ 2) (nofZ 3)) with Ok b => violated_limits b | _ => false end
                | _ => false end = true) by (vm_compute; reflexivity).
    rewrite S1, S2 in E. exact E.
Qed.
