(** What the simple and the wrist transmission write, for either interpretation of [double]; and chains of roundings
    built along such formulas. *)
From Coq Require Import List Reals Arith Bool ZArith Lia Lra String.
From Flocq Require Import Core.Core IEEE754.BinarySingleNaN.
From Verif.Model Require Import Base Num Joint Hardware Xml Transmission Simple Wrist.
From Verif.Spec Require Import TransmissionSpec FloatSpec.
From Verif.Proofs Require Import NumFacts Rounding TransmissionProofs.
Import ListNotations.

(** The vectors RobotState hands to a simple transmission: one actuator, one joint, plus one if a simulated joint is
    configured; joint states are distinct objects. *)
Definition simple_vecs {T} (t : simple T) (js : list nat) (q : nat) : Prop :=
  (st_use_sim t = false /\ js = [q]) \/ (exists k, st_use_sim t = true /\ js = [q; k] /\ k <> q).

Ltac objs := cbn [act_upd js_upd m_act m_js] in *; unfold upd in *; rewrite ?Nat.eqb_refl in *;
  repeat match goal with
  | H : ?p <> ?q, H' : context [Nat.eqb ?p ?q] |- _ => rewrite (proj2 (Nat.eqb_neq p q) H) in H'
  | H : ?q <> ?p, H' : context [Nat.eqb ?p ?q] |- _ => rewrite (proj2 (Nat.eqb_neq p q) (fun e => H (eq_sym e))) in H'
  | H : ?p <> ?q |- context [Nat.eqb ?p ?q] => rewrite (proj2 (Nat.eqb_neq p q) H)
  | H : ?q <> ?p |- context [Nat.eqb ?p ?q] => rewrite (proj2 (Nat.eqb_neq p q) (fun e => H (eq_sym e)))
  end.

Section Gen.
Context {T : Type} {N : Num T} {G : Trig T}.
Local Open Scope num_scope.

Lemma svecs_ok dbg (t : simple T) a js q : simple_vecs t js q -> simple_sizes dbg t [a] js = Ok tt /\ vget js 0 = Ok q /\ In q js.
Proof. intros [[U ->]|[k [U [-> Hk]]]]; unfold simple_sizes; rewrite U; destruct dbg; simpl; auto. Qed.

Lemma sforward dbg (t : simple T) a js q m : simple_vecs t js q -> exists m1,
  simple_propagatePosition dbg t [a] js m = Ok m1 /\ only_joints js m m1 /\
  position (m_js m1 q) = a_position (m_act m a) / st_red t + reference_position (m_js m q) /\
  velocity (m_js m1 q) = a_velocity (m_act m a) / st_red t /\
  measured_effort (m_js m1 q) = a_last_measured_effort (m_act m a) * st_red t /\
  same_config_j (m_js m q) (m_js m1 q).
Proof.
  intros V. destruct (svecs_ok dbg t a js q V) as [S1 [S2 S3]]. unfold simple_propagatePosition. rewrite S1, S2.
  destruct V as [[U ->]|[k [U [-> Hk]]]]; rewrite U; cbn [bind vget nth_error]; eexists; (split; [reflexivity|]).
  - split; [split; [reflexivity|]|].
    + intros p Hp. simpl in Hp. cbn [js_upd m_js]. unfold upd. destruct (Nat.eqb_spec p q); [subst; tauto|reflexivity].
    + objs. repeat split.
  - split; [split; [reflexivity|]|].
    + intros p Hp. simpl in Hp. cbn [js_upd m_js]. unfold upd.
      destruct (Nat.eqb_spec p q); [subst; tauto|]. destruct (Nat.eqb_spec p k); [subst; tauto|reflexivity].
    + objs. repeat split.
Qed.

Lemma sbackward dbg e (t : simple T) a js q m : simple_vecs t js q -> js_joint (m_js m q) <> None -> exists t' m1,
  simple_propagatePositionBackwards dbg e t js [a] m = Ok (t', m1) /\ only_actuators [a] m m1 /\
  a_position (m_act m1 a) = (position (m_js m q) - reference_position (m_js m q)) * st_red t /\
  a_velocity (m_act m1 a) = velocity (m_js m q) * st_red t /\
  a_last_measured_effort (m_act m1 a) = measured_effort (m_js m q) / st_red t /\
  st_red t' = st_red t /\ st_use_sim t' = st_use_sim t /\ st_sim_red t' = st_sim_red t.
Proof.
  intros V Hj. destruct (svecs_ok dbg t a js q V) as [S1 [S2 S3]]. unfold simple_propagatePositionBackwards.
  rewrite S1, S2. cbn [bind vget nth_error].
  destruct (sim_clock e (st_ts_init t) (st_start t)) as [[ini start] stamp].
  match goal with |- context [simcal_mem dbg ?c q a ?mm] =>
    destruct (simcal_total dbg c q a mm) as [c' [a' [E K]]]; [exact Hj|] end.
  rewrite E. cbn [bind]. eexists. eexists. split; [reflexivity|].
  apply sbc_fields in K. destruct K as [K1 [K2 [K3 _]]].
  objs.
  split; [split; [reflexivity|]|].
  - intros p Hp. simpl in Hp. objs. destruct (Nat.eqb_spec p a); [subst; tauto|reflexivity].
  - objs. rewrite K1, K2, K3. repeat split.
Qed.

Lemma seffort dbg (t : simple T) a js q m : simple_vecs t js q -> exists m1,
  simple_propagateEffort dbg t js [a] m = Ok m1 /\ only_actuators [a] m m1 /\ only_command (m_act m a) (m_act m1 a) /\
  a_enable (m_act m1 a) = true /\ a_effort (m_act m1 a) = commanded_effort (m_js m q) / st_red t.
Proof.
  intros V. destruct (svecs_ok dbg t a js q V) as [S1 [S2 S3]]. unfold simple_propagateEffort. rewrite S1, S2.
  cbn [bind vget nth_error]. eexists. split; [reflexivity|]. objs.
  split; [split; [reflexivity|]; intros p Hp; simpl in Hp; objs; destruct (Nat.eqb_spec p a); [subst; tauto|reflexivity]|].
  split; [eexists; eexists; reflexivity|]. split; reflexivity.
Qed.
Lemma seffort_back dbg (t : simple T) a q m : st_use_sim t = false -> exists m1,
  simple_propagateEffortBackwards dbg t [a] [q] m = Ok m1 /\ only_joints [q] m m1 /\
  commanded_effort (m_js m1 q) = a_effort (m_act m a) * st_red t.
Proof.
  intros U. unfold simple_propagateEffortBackwards, simple_sizes. rewrite U. destruct dbg; cbn [cassert List.length Nat.eqb bind vget nth_error];
    (eexists; split; [reflexivity|]); objs;
    (split; [split; [reflexivity|]; intros p Hp; simpl in Hp; objs; destruct (Nat.eqb_spec p q); [subst; tauto|reflexivity]|]); reflexivity.
Qed.

(** ** wrist *)
Record wrist_shape (t : wrist T) (p0 p1 q0 q1 : nat) (ar0 ar1 jr0 jr1 : T) : Prop := {
  ws_ar : wt_ar t = [ar0; ar1];
  ws_jr : wt_jr t = [jr0; jr1];
  ws_p : p0 <> p1;
  ws_q : q0 <> q1 }.
Lemma wszs dbg p0 p1 q0 q1 : wrist_sizes dbg [p0; p1] [q0; q1] = Ok tt.
Proof. destruct dbg; reflexivity. Qed.

Lemma wforward dbg (t : wrist T) p0 p1 q0 q1 ar0 ar1 jr0 jr1 m : wrist_shape t p0 p1 q0 q1 ar0 ar1 jr0 jr1 -> exists m1,
  wrist_propagatePosition dbg t [p0; p1] [q0; q1] m = Ok m1 /\ only_joints [q0; q1] m m1 /\
  (let a0 := m_act m p0 in let a1 := m_act m p1 in let j0 := m_js m1 q0 in let j1 := m_js m1 q1 in
   position j0 = (a_position a0 / ar0 - a_position a1 / ar1) / (ntwo * jr0) + reference_position (m_js m q0) + wt_off0 t /\
   velocity j0 = (a_velocity a0 / ar0 - a_velocity a1 / ar1) / (ntwo * jr0) /\
   measured_effort j0 = jr0 * (a_last_measured_effort a0 * ar0 - a_last_measured_effort a1 * ar1) /\
   position j1 = (- a_position a0 / ar0 - a_position a1 / ar1) / (ntwo * jr1) + reference_position (m_js m q1) + wt_off1 t /\
   velocity j1 = (- a_velocity a0 / ar0 - a_velocity a1 / ar1) / (ntwo * jr1) /\
   measured_effort j1 = jr1 * (- a_last_measured_effort a0 * ar0 - a_last_measured_effort a1 * ar1)) /\
  same_config_j (m_js m q0) (m_js m1 q0) /\ same_config_j (m_js m q1) (m_js m1 q1).
Proof.
  intros [A J P Q]. unfold wrist_propagatePosition. rewrite wszs, A, J. cbn [bind vget nth_error].
  eexists. split; [reflexivity|]. split; [|split; [|split]].
  - split; [reflexivity|]. intros q Hq. simpl in Hq. objs.
    destruct (Nat.eqb_spec q q0); [subst; tauto|]. destruct (Nat.eqb_spec q q1); [subst; tauto|reflexivity].
  - objs. cbv zeta. repeat split.
  - objs. repeat split.
  - objs. repeat split.
Qed.

Lemma wbackward dbg e (t : wrist T) p0 p1 q0 q1 ar0 ar1 jr0 jr1 m : wrist_shape t p0 p1 q0 q1 ar0 ar1 jr0 jr1 ->
  js_joint (m_js m q0) <> None -> js_joint (m_js m q1) <> None -> exists t' m1,
  wrist_propagatePositionBackwards dbg e t [q0; q1] [p0; p1] m = Ok (t', m1) /\ only_actuators [p0; p1] m m1 /\
  (let a0 := m_act m1 p0 in let a1 := m_act m1 p1 in let j0 := m_js m q0 in let j1 := m_js m q1 in
   let d0 := position j0 - reference_position j0 - wt_off0 t in let d1 := position j1 - reference_position j1 - wt_off1 t in
   a_position a0 = (d0 * jr0 - d1 * jr1) * ar0 /\
   a_velocity a0 = (velocity j0 * jr0 - velocity j1 * jr1) * ar0 /\
   a_last_measured_effort a0 = (measured_effort j0 / jr0 - measured_effort j1 / jr1) / (ntwo * ar0) /\
   a_position a1 = (- d0 * jr0 - d1 * jr1) * ar1 /\
   a_velocity a1 = (- velocity j0 * jr0 - velocity j1 * jr1) * ar1 /\
   a_last_measured_effort a1 = (- measured_effort j0 / jr0 - measured_effort j1 / jr1) / (ntwo * ar1)) /\
  wt_ar t' = wt_ar t /\ wt_jr t' = wt_jr t /\ wt_off0 t' = wt_off0 t /\ wt_off1 t' = wt_off1 t.
Proof.
  intros [A J P Q] H0 H1. unfold wrist_propagatePositionBackwards. rewrite wszs, A, J. cbn [bind vget nth_error].
  destruct (sim_clock e (wt_ts_init t) (wt_start t)) as [[ini start] stamp].
  match goal with |- context [simcal_mem dbg ?c q0 p1 ?mm] =>
    destruct (simcal_total dbg c q0 p1 mm) as [c0 [a1' [E0 K1]]]; [exact H0|] end.
  rewrite E0. cbn [bind]. clear E0.
  match goal with |- context [simcal_mem dbg ?c q1 p0 ?mm] =>
    destruct (simcal_total dbg c q1 p0 mm) as [c1 [a0' [E1 K0]]]; [exact H1|] end.
  rewrite E1. cbn [bind]. clear E1. eexists. eexists. split; [reflexivity|].
  apply sbc_fields in K0, K1. destruct K0 as [K01 [K02 [K03 _]]], K1 as [K11 [K12 [K13 _]]].
  objs.
  split; [|split].
  - split; [reflexivity|]. intros p Hp. simpl in Hp. objs.
    destruct (Nat.eqb_spec p p0); [subst; tauto|]. destruct (Nat.eqb_spec p p1); [subst; tauto|reflexivity].
  - objs. cbv zeta. rewrite K01, K02, K03, K11, K12, K13. repeat split.
  - rewrite <- A, <- J. repeat split.
Qed.

Lemma weffort dbg (t : wrist T) p0 p1 q0 q1 ar0 ar1 jr0 jr1 m : wrist_shape t p0 p1 q0 q1 ar0 ar1 jr0 jr1 -> exists m1,
  wrist_propagateEffort dbg t [q0; q1] [p0; p1] m = Ok m1 /\ only_actuators [p0; p1] m m1 /\
  (let e0 := commanded_effort (m_js m q0) in let e1 := commanded_effort (m_js m q1) in
   a_effort (m_act m1 p0) = (e0 / jr0 - e1 / jr1) / (ntwo * ar0) /\
   a_effort (m_act m1 p1) = (- e0 / jr0 - e1 / jr1) / (ntwo * ar1)) /\
  a_enable (m_act m1 p0) = true /\ a_enable (m_act m1 p1) = true.
Proof.
  intros [A J P Q]. unfold wrist_propagateEffort. rewrite wszs, A, J. cbn [bind vget nth_error].
  eexists. split; [reflexivity|]. objs. split; [|repeat split].
  split; [reflexivity|]. intros p Hp. simpl in Hp. objs.
  destruct (Nat.eqb_spec p p0); [subst; tauto|]. destruct (Nat.eqb_spec p p1); [subst; tauto|reflexivity].
Qed.
Lemma weffort_back dbg (t : wrist T) p0 p1 q0 q1 ar0 ar1 jr0 jr1 m : wrist_shape t p0 p1 q0 q1 ar0 ar1 jr0 jr1 -> exists m1,
  wrist_propagateEffortBackwards dbg t [p0; p1] [q0; q1] m = Ok m1 /\ only_joints [q0; q1] m m1 /\
  (let e0 := a_effort (m_act m p0) in let e1 := a_effort (m_act m p1) in
   commanded_effort (m_js m1 q0) = jr0 * (e0 * ar0 - e1 * ar1) /\
   commanded_effort (m_js m1 q1) = jr1 * (- e0 * ar0 - e1 * ar1)).
Proof.
  intros [A J P Q]. unfold wrist_propagateEffortBackwards. rewrite wszs, A, J. cbn [bind vget nth_error].
  eexists. split; [reflexivity|]. objs. split; [|repeat split].
  split; [reflexivity|]. intros q Hq. simpl in Hq. objs.
  destruct (Nat.eqb_spec q q0); [subst; tauto|]. destruct (Nat.eqb_spec q q1); [subst; tauto|reflexivity].
Qed.
End Gen.

(** ** chains of roundings along a formula *)
Local Open Scope R_scope.
Definition apz (n : Z) (x : B64) (r M : R) (j e : Z) : Prop := approx (IZR n) x r M j e.

Lemma apz_moderate x : moderate x -> apz 0 x (B2R x) (Rabs (B2R x)) 500 (-1075).
Proof. apply approx_moderate. Qed.
Lemma apz_neg n x r M j e : apz n x r M j e -> apz n (nopp x) (- r) M j e.
Proof. apply approx_neg. Qed.
Lemma two_plus n : IZR n + 2 = IZR (n + 2).
Proof. rewrite plus_IZR. reflexivity. Qed.
Lemma apz_div n x r M j e q : apz n x r M j e -> ordinary q -> (n <= 900)%Z -> (0 <= j <= 920)%Z -> (e <= 300)%Z ->
  apz (n + 2) (ndiv x q) (r / B2R q) (M / Rabs (B2R q)) (j + 100) (e + 102).
Proof.
  intros P [F [L U]] Hn J E. unfold apz. rewrite <- two_plus. replace (e + 102)%Z with (e + 100 + 2)%Z by lia.
  apply (approx_div (IZR n) x r M j e q 100); auto; try lia. rewrite two_plus. apply IZR_le. lia.
Qed.
Lemma apz_mul n x r M j e q : apz n x r M j e -> ordinary q -> (n <= 900)%Z -> (0 <= j <= 920)%Z -> (e <= 300)%Z ->
  apz (n + 2) (nmul x q) (r * B2R q) (M * Rabs (B2R q)) (j + 100) (e + 102).
Proof.
  intros P [F [L U]] Hn J E. unfold apz. rewrite <- two_plus. replace (e + 102)%Z with (e + 100 + 2)%Z by lia.
  apply (approx_mul (IZR n) x r M j e q 100); auto; try lia. rewrite two_plus. apply IZR_le. lia.
Qed.
Lemma apz_mul_l n x r M j e q : apz n x r M j e -> ordinary q -> (n <= 900)%Z -> (0 <= j <= 920)%Z -> (e <= 300)%Z ->
  apz (n + 2) (nmul q x) (B2R q * r) (M * Rabs (B2R q)) (j + 100) (e + 102).
Proof.
  intros P [F [L U]] Hn J E. unfold apz. rewrite <- two_plus. replace (e + 102)%Z with (e + 100 + 2)%Z by lia.
  apply (approx_mul_l (IZR n) x r M j e q 100); auto; try lia. rewrite two_plus. apply IZR_le. lia.
Qed.
Lemma apz_half n x r M j e q : apz n x r M j e -> ordinary q -> (n <= 900)%Z -> (0 <= j <= 920)%Z -> (e <= 300)%Z ->
  apz (n + 2) (ndiv x (nmul ntwo q)) (r / (2 * B2R q)) (M / (2 * Rabs (B2R q))) (j + 100) (e + 102).
Proof.
  intros P [F [L U]] Hn J E. unfold apz. rewrite <- two_plus. replace (e + 102)%Z with (e + 100 + 2)%Z by lia.
  destruct (double_val q F) as [F2 V2].
  { eapply Rle_trans; [exact U|]. apply bpow_le. lia. }
  change (Bmult mode_NE ntwo q) with (nmul ntwo q) in F2, V2.
  assert (A2 : Rabs (B2R (nmul ntwo q)) = 2 * Rabs (B2R q)).
  { etransitivity; [apply f_equal; exact V2|]. rewrite Rabs_mult, (Rabs_right 2) by lra. reflexivity. }
  pose proof (approx_div (IZR n) x r M j e (nmul ntwo q) 100) as D. rewrite A2 in D.
  assert (V3 : B2R (nmul ntwo q) = 2 * B2R q) by exact V2. rewrite V3 in D.
  apply D; auto; try lia.
  - pose proof (bpow_gt_0 radix2 (- (100))). change (-100)%Z with (- (100))%Z in L. lra.
  - rewrite two_plus. apply IZR_le. lia.
Qed.
Lemma apz_add n n' x y r s M M' j e j' e' : apz n x r M j e -> apz n' y s M' j' e' -> (n <= 900)%Z -> (n' <= 900)%Z ->
  (0 <= j <= 1010)%Z -> (0 <= j' <= 1010)%Z -> (e <= 300)%Z -> (e' <= 300)%Z ->
  apz (Z.max n n' + 2) (nadd x y) (r + s) (M + M') (Z.max j j' + 1) (Z.max e e' + 2).
Proof.
  intros P P' N1 N2 J1 J2 E1 E2. unfold apz. rewrite <- two_plus.
  apply (approx_add (IZR n) (IZR n') (IZR (Z.max n n')) x y r s M M' j e (Z.max j j') (Z.max e e') j' e'); auto; try lia; try (apply IZR_le; lia).
  rewrite two_plus. apply IZR_le. lia.
Qed.
Lemma apz_sub n n' x y r s M M' j e j' e' : apz n x r M j e -> apz n' y s M' j' e' -> (n <= 900)%Z -> (n' <= 900)%Z ->
  (0 <= j <= 1010)%Z -> (0 <= j' <= 1010)%Z -> (e <= 300)%Z -> (e' <= 300)%Z ->
  apz (Z.max n n' + 2) (nsub x y) (r - s) (M + M') (Z.max j j' + 1) (Z.max e e' + 2).
Proof.
  intros P P' N1 N2 J1 J2 E1 E2. unfold apz. rewrite <- two_plus.
  apply (approx_sub (IZR n) (IZR n') (IZR (Z.max n n')) x y r s M M' j e (Z.max j j') (Z.max e e') j' e'); auto; try lia; try (apply IZR_le; lia).
  rewrite two_plus. apply IZR_le. lia.
Qed.
Lemma apz_within n x r M j e n' r' M' : apz n x r M j e -> (e <= -600)%Z -> (n <= n')%Z -> r = r' -> M <= M' -> within (IZR n') x r' M'.
Proof.
  intros P E N1 <- H. pose proof (approx_size _ _ _ _ _ _ P) as [_ M0]. pose proof (ap_n _ _ _ _ _ _ P).
  eapply within_weak; [apply (approx_within _ _ _ _ _ _ P E)| |]; [split; [lra|apply IZR_le; auto]|lra].
Qed.

Ltac chain := lazymatch goal with
  | |- apz _ (ndiv _ (nmul ntwo _)) _ _ _ _ => eapply apz_half; [chain|eassumption|lia..]
  | |- apz _ (ndiv _ _) _ _ _ _ => eapply apz_div; [chain|eassumption|lia..]
  | |- apz _ (nadd _ _) _ _ _ _ => eapply apz_add; [chain|chain|lia..]
  | |- apz _ (nsub _ _) _ _ _ _ => eapply apz_sub; [chain|chain|lia..]
  | |- apz _ (nopp _) _ _ _ _ => eapply apz_neg; chain
  | |- apz _ (nmul ?q ?x) _ _ _ _ => match goal with
      | H : ordinary q |- _ => eapply apz_mul_l; [chain|eassumption|lia..]
      | H : ordinary x |- _ => eapply apz_mul; [chain|eassumption|lia..] end
  | |- apz _ ?x _ _ _ _ => eapply apz_moderate; assumption
  end.
