(** C52, C53: the calibration simulator (real arithmetic). *)
From Coq Require Import List Reals Arith Bool ZArith Lia Lra Psatz String.
From Flocq Require Import Core.Raux Core.Zaux.
From Verif.Model Require Import Base Num Joint Hardware Transmission.
From Verif.Spec Require Import CalibrationSpec.
Import ListNotations.
Local Open Scope R_scope.

(** ** normalize_angle *)
Lemma fmod_bound a m : 0 < m -> - m < nfmod a m < m.
Proof.
  intros Hm. cbn [nfmod trig_R]. assert (E : a = a / m * m) by (field; lra). set (q := a / m) in *. rewrite E. clear E.
  unfold Ztrunc. destruct (Rlt_bool_spec q 0).
  - unfold Zceil. rewrite opp_IZR. pose proof (Zfloor_lb (- q)). pose proof (Zfloor_ub (- q)). split; nra.
  - pose proof (Zfloor_lb q). pose proof (Zfloor_ub q). split; nra.
Qed.
Lemma fmod_pos a m : 0 < m -> 0 <= a -> 0 <= nfmod a m.
Proof.
  intros Hm Ha. cbn [nfmod trig_R]. assert (E : a = a / m * m) by (field; lra).
  assert (Q : 0 <= a / m) by (apply Rmult_le_pos; [lra|left; apply Rinv_0_lt_compat; lra]). set (q := a / m) in *. rewrite E. clear E Ha.
  unfold Ztrunc. rewrite Rlt_bool_false by lra. pose proof (Zfloor_lb q). nra.
Qed.
Lemma fmod_eq a m : exists k, nfmod a m = a - m * IZR k.
Proof. cbn [nfmod trig_R]. eauto. Qed.

Lemma norm_range x : - PI < normalize_angle x <= PI.
Proof.
  unfold normalize_angle, normalize_angle_positive. pose proof PI_RGT_0.
  change (nmul ntwo npi) with (2 * PI). set (m := 2 * PI). assert (Hm : 0 < m) by (unfold m; lra).
  pose proof (fmod_bound x m Hm) as B1. set (y := nfmod x m) in *. change (nadd y m) with (y + m).
  pose proof (fmod_bound (y + m) m Hm) as B2. pose proof (fmod_pos (y + m) m Hm ltac:(lra)) as B3. set (z := nfmod (y + m) m) in *.
  change (nltb npi z) with (Rlt_bool PI z). change (nsub z m) with (z - m). destruct (Rlt_bool_spec PI z); unfold m in *; lra.
Qed.
Lemma norm_turns x : exists k, normalize_angle x = x + 2 * PI * IZR k.
Proof.
  unfold normalize_angle, normalize_angle_positive. change (nmul ntwo npi) with (2 * PI). set (m := 2 * PI).
  destruct (fmod_eq x m) as [k1 E1]. destruct (fmod_eq (nfmod x m + m) m) as [k2 E2].
  change (nadd (nfmod x m) m) with (nfmod x m + m). set (z := nfmod (nfmod x m + m) m) in *.
  change (nltb npi z) with (Rlt_bool PI z). change (nsub z m) with (z - m). destruct (Rlt_bool PI z).
  - exists (- k1 - k2)%Z. rewrite minus_IZR, opp_IZR. rewrite E2, E1. ring.
  - exists (- k1 - k2 + 1)%Z. rewrite plus_IZR, minus_IZR, opp_IZR. rewrite E2, E1. ring.
Qed.
Lemma norm_unique x y k : - PI < y <= PI -> x = y + 2 * PI * IZR k -> normalize_angle x = y.
Proof.
  intros Hy E. pose proof (norm_range x) as B. destruct (norm_turns x) as [l N]. pose proof PI_RGT_0.
  assert (D : normalize_angle x - y = 2 * PI * IZR (k + l)) by (rewrite plus_IZR, N, E; ring).
  assert (k + l = 0)%Z.
  { destruct (Z.lt_trichotomy (k + l) 0) as [C|[C|C]]; auto.
    - apply Z.le_succ_l in C. assert (IZR (k + l) <= -1) by (apply IZR_le; lia). nra.
    - assert (1 <= IZR (k + l)) by (apply IZR_le; lia). nra. }
  rewrite H0 in D. lra.
Qed.

(** ** The state of the simulator along a history *)
Definition with_old (c : calsim R) (rd : bool) (p ap : R) : calsim R :=
  set_cs_initialized true (set_cs_old_as_pos ap (set_cs_old_pos p (set_cs_old_reading rd c))).

Lemma info_total dbg (u : ujoint R) j c : js_joint j = Some u -> exists c0, GetJointCalibrationInfo dbg c j = Ok c0 /\ cs_got_info c0 = true /\ cs_initialized c0 = cs_initialized c.
Proof.
  intros E. unfold GetJointCalibrationInfo. rewrite E.
  assert (CA : cassert dbg true = Ok tt) by (destruct dbg; reflexivity). rewrite CA. cbn [bind].
  eexists. split; [reflexivity|]. split; [reflexivity|].
  destruct (uj_calib u) as [[[r|] [f|]]|]; destruct (jtype_eqb (uj_type u) JCONTINUOUS); cbn;
    repeat (match goal with |- context [if ?b then _ else _] => destruct b end; cbn); reflexivity.
Qed.

Section History.
Variables (dbg : bool) (u : ujoint R) (cs : nat -> calsim R) (J : nat -> jointstate R) (before after : nat -> actuator R).
Hypothesis H : cal_history dbg u cs J before after.

(** the configuration read at the first call *)
Lemma first : exists g1 g2 g3 g4 b1 b2 c0, cs 0%nat = new_calsim g1 g2 g3 g4 b1 b2 /\ GetJointCalibrationInfo dbg (cs 0%nat) (J 0%nat) = Ok c0 /\
  cs_got_info c0 = true /\ cs_initialized c0 = false /\
  a_calibration_reading (after 0%nat) = cal_reading c0 (cpos (J 0%nat)) (a_calibration_reading (before 0%nat)) /\
  same_edges (before 0%nat) (after 0%nat) /\
  cs 1%nat = with_old c0 (a_calibration_reading (after 0%nat)) (cpos (J 0%nat)) (a_position (before 0%nat)).
Proof.
  destruct H as [[g1 [g2 [g3 [g4 [b1 [b2 E0]]]]]] [HJ [HS _]]].
  destruct (info_total dbg u (J 0%nat) (cs 0%nat) (HJ 0%nat)) as [c0 [EC [GI IN]]].
  exists g1, g2, g3, g4, b1, b2, c0. split; [exact E0|]. split; [exact EC|]. split; [exact GI|].
  assert (IN' : cs_initialized c0 = false) by (rewrite IN, E0; reflexivity). split; [exact IN'|].
  pose proof (HS 0%nat) as S0. unfold simulateJointCalibration in S0.
  replace (cs_got_info (cs 0%nat)) with false in S0 by (rewrite E0; reflexivity).
  rewrite EC in S0. cbn [bind] in S0. rewrite IN' in S0. injection S0 as S1 S2. rewrite <- S1, <- S2. cbn.
  repeat split.
Qed.

Lemma later c0 n : cs_got_info c0 = true ->
  cs (S n) = with_old c0 (a_calibration_reading (after n)) (cpos (J n)) (a_position (before n)) ->
  let p := cpos (J n) in let p' := cpos (J (S n)) in
  let rd := a_calibration_reading (after n) in let rd' := a_calibration_reading (after (S n)) in
  rd' = cal_reading c0 p' rd /\
  cs (S (S n)) = with_old c0 rd' p' (a_position (before (S n))) /\
  (rd' = rd -> same_edges (after n) (after (S n))) /\
  (rd' <> rd ->
    (a_rising_valid (after (S n)) = true /\ a_last_rising (after (S n)) = a_position (before n) /\
     a_falling_valid (after (S n)) = a_falling_valid (after n) /\ a_last_falling (after (S n)) = a_last_falling (after n) /\
     (if rd' then p < p' else p' <= p))
    \/
    (a_falling_valid (after (S n)) = true /\ a_last_falling (after (S n)) = a_position (before n) /\
     a_rising_valid (after (S n)) = a_rising_valid (after n) /\ a_last_rising (after (S n)) = a_last_rising (after n) /\
     (if rd' then p' <= p else p < p'))).
Proof.
  intros GI ES p p' rd rd'. destruct H as [_ [HJ [HS HC]]]. pose proof (HS (S n)) as S1. destruct (HC n) as [[K1 [K2 [K3 K4]]] K5].
  unfold simulateJointCalibration in S1.
  replace (cs_got_info (cs (S n))) with true in S1 by (rewrite ES; unfold with_old; cbn; auto).
  cbn [bind] in S1. replace (cs_initialized (cs (S n))) with true in S1 by (rewrite ES; reflexivity).
  change (nsub (position (J (S n))) (reference_position (J (S n)))) with p' in S1.
  assert (RD : cal_reading (cs (S n)) p' (a_calibration_reading (before (S n))) = cal_reading c0 p' rd) by (rewrite ES, K5; reflexivity).
  rewrite RD in S1.
  replace (cs_old_reading (cs (S n))) with rd in S1 by (rewrite ES; reflexivity).
  replace (cs_old_pos (cs (S n))) with p in S1 by (rewrite ES; reflexivity).
  replace (cs_old_as_pos (cs (S n))) with (a_position (before n)) in S1 by (rewrite ES; reflexivity).
  set (nr := cal_reading c0 p' rd) in *. cbn [a_calibration_reading set_a_calibration_reading] in S1.
  change (nltb p p') with (Rlt_bool p p') in S1.
  assert (W : forall x a, set_cs_initialized true (set_cs_old_as_pos a (set_cs_old_pos p' (set_cs_old_reading x (cs (S n))))) = with_old c0 x p' a).
  { intros x a. rewrite ES. reflexivity. }
  rewrite W in S1. injection S1 as S1 S2.
  assert (RR : rd' = nr).
  { unfold rd'. rewrite <- S2. destruct (negb (Bool.eqb rd nr)); [destruct nr; destruct (Rlt_bool p p')|]; reflexivity. }
  split; [exact RR|]. split.
  { rewrite <- S1. unfold rd'. rewrite <- S2. reflexivity. }
  unfold same_edges. rewrite RR. rewrite <- K1, <- K2, <- K3, <- K4. rewrite <- S2. split.
  - intros ->. rewrite Bool.eqb_reflx. cbn. repeat split.
  - intros D. assert (E : negb (Bool.eqb rd nr) = true) by (destruct rd, nr; auto; congruence). rewrite E.
    destruct nr; destruct (Rlt_bool_spec p p') as [L|L]; cbn; [left|right|right|left]; repeat split; auto.
Qed.

Lemma always : exists g1 g2 g3 g4 b1 b2 c0, cs 0%nat = new_calsim g1 g2 g3 g4 b1 b2 /\ GetJointCalibrationInfo dbg (cs 0%nat) (J 0%nat) = Ok c0 /\
  cs_got_info c0 = true /\ a_calibration_reading (after 0%nat) = cal_reading c0 (cpos (J 0%nat)) (a_calibration_reading (before 0%nat)) /\
  same_edges (before 0%nat) (after 0%nat) /\
  forall n, cs (S n) = with_old c0 (a_calibration_reading (after n)) (cpos (J n)) (a_position (before n)).
Proof.
  destruct first as [g1 [g2 [g3 [g4 [b1 [b2 [c0 [E0 [EC [GI [IN [R0 [SE C1]]]]]]]]]]]]].
  exists g1, g2, g3, g4, b1, b2, c0. do 5 (split; [assumption|]).
  intros n. induction n as [|n IH]; [exact C1|]. apply (later c0 n GI IH).
Qed.
End History.

(** ** What the configuration makes of the references *)
Lemma config_linear dbg u g1 g2 g3 g4 b1 b2 j c0 : js_joint j = Some u -> ~ continuous u ->
  GetJointCalibrationInfo dbg (new_calsim g1 g2 g3 g4 b1 b2) j = Ok c0 ->
  cs_continuous c0 = false /\
  (match rising_of u with Some r => cs_has_rising c0 = true /\ cs_rising c0 = r | None => cs_has_rising c0 = false end) /\
  (match falling_of u with Some f => cs_has_falling c0 = true /\ cs_falling c0 = f | None => cs_has_falling c0 = false end).
Proof.
  intros E HC I. unfold GetJointCalibrationInfo in I. rewrite E in I.
  assert (CA : cassert dbg true = Ok tt) by (destruct dbg; reflexivity). rewrite CA in I. cbn [bind] in I.
  assert (JT : jtype_eqb (uj_type u) JCONTINUOUS = false) by (unfold continuous in HC; destruct (uj_type u); auto; congruence).
  rewrite JT in I. unfold rising_of, falling_of. destruct (uj_calib u) as [[r f]|]; [destruct r, f|]; injection I as <-; cbn; auto.
Qed.

Lemma config_turn dbg u g1 g2 g3 g4 b1 b2 j c0 r f : js_joint j = Some u -> continuous u -> turn_references u r f ->
  GetJointCalibrationInfo dbg (new_calsim g1 g2 g3 g4 b1 b2) j = Ok c0 ->
  cs_continuous c0 = true /\ cs_rising c0 = normalize_angle r /\ cs_falling c0 = normalize_angle f /\
  cs_bump c0 = Rlt_bool (normalize_angle r) (normalize_angle f).
Proof.
  intros E HC T I. unfold GetJointCalibrationInfo in I. rewrite E in I.
  assert (CA : cassert dbg true = Ok tt) by (destruct dbg; reflexivity). rewrite CA in I. cbn [bind] in I.
  unfold continuous in HC. rewrite HC in I. cbn [jtype_eqb] in I.
  destruct T as [r f ER EF|r ER EF|f ER EF]; unfold rising_of, falling_of in ER, EF; destruct (uj_calib u) as [[r' f']|]; try discriminate; simpl in ER, EF; subst r' f';
    injection I as <-; cbn - [normalize_angle PI]; repeat split.
Qed.

(** The reading of a joint with travel limits. *)
Definition low_high (rd : R -> bool) (x y : R) : Prop := rd x = false /\ rd y = true.

Lemma turn_reading c r f rd0 x : cs_continuous c = true -> cs_rising c = normalize_angle r -> cs_falling c = normalize_angle f ->
  cs_bump c = Rlt_bool (normalize_angle r) (normalize_angle f) ->
  let rn := normalize_angle r in let fn := normalize_angle f in
  (rn < fn /\ (cal_reading c x rd0 = true <-> exists k, rn + 2 * PI * IZR k < x < fn + 2 * PI * IZR k)) \/
  (fn <= rn /\ (cal_reading c x rd0 = false <-> exists k, fn + 2 * PI * IZR k < x < rn + 2 * PI * IZR k)).
Proof.
  intros HC HR HF HB rn fn. unfold cal_reading. rewrite HC, HB, HR, HF. fold rn fn.
  pose proof (norm_range r) as Br. pose proof (norm_range f) as Bf. fold rn in Br. fold fn in Bf.
  assert (U : forall lo hi, - PI < lo <= PI -> - PI < hi <= PI ->
     (lo < normalize_angle x < hi <-> exists k, lo + 2 * PI * IZR k < x < hi + 2 * PI * IZR k)).
  { intros lo hi Hl Hh. split.
    - intros B. destruct (norm_turns x) as [k E]. exists (- k)%Z. rewrite opp_IZR. lra.
    - intros [k B]. rewrite (norm_unique x (x - 2 * PI * IZR k) k); lra. }
  change (nltb rn (normalize_angle x)) with (Rlt_bool rn (normalize_angle x)). change (nltb (normalize_angle x) fn) with (Rlt_bool (normalize_angle x) fn).
  change (nltb fn (normalize_angle x)) with (Rlt_bool fn (normalize_angle x)). change (nltb (normalize_angle x) rn) with (Rlt_bool (normalize_angle x) rn).
  destruct (Rlt_bool_spec rn fn) as [L|L]; [left|right]; (split; [exact L|]).
  - rewrite <- U by auto. destruct (Rlt_bool_spec rn (normalize_angle x)); destruct (Rlt_bool_spec (normalize_angle x) fn); cbn; split; intros; try discriminate; auto; lra.
  - rewrite <- U by auto. destruct (Rlt_bool_spec (normalize_angle x) rn); destruct (Rlt_bool_spec fn (normalize_angle x)); cbn; split; intros; try discriminate; auto; lra.
Qed.

(** Where the reading changes the right reference has been passed. *)
Lemma linear_change c r f rd0 rd0' x x' :
  cs_continuous c = false ->
  (match r with Some r => cs_has_rising c = true /\ cs_rising c = r | None => cs_has_rising c = false end) ->
  (match f with Some f => cs_has_falling c = true /\ cs_falling c = f | None => cs_has_falling c = false end) ->
  (r <> None \/ f <> None) ->
  cal_reading c x rd0 <> cal_reading c x' rd0' ->
  match r with
  | Some r => if cal_reading c x' rd0' then x <= r < x' else x' <= r < x
  | None => match f with Some f => if cal_reading c x' rd0' then x' < f <= x else x < f <= x' | None => False end
  end.
Proof.
  intros HC HR HF HS D. unfold cal_reading in *. rewrite HC in *. destruct r as [r|].
  - destruct HR as [H1 H2]. rewrite H1, H2 in D |- *. change (nltb r x) with (Rlt_bool r x) in *. change (nltb r x') with (Rlt_bool r x') in *.
    destruct (Rlt_bool_spec r x); destruct (Rlt_bool_spec r x'); try congruence; lra.
  - rewrite HR in *. destruct f as [f|]; [|destruct HS; congruence].
    destruct HF as [H1 H2]. rewrite H1, H2 in D |- *. change (nltb x f) with (Rlt_bool x f) in *. change (nltb x' f) with (Rlt_bool x' f) in *.
    destruct (Rlt_bool_spec x f); destruct (Rlt_bool_spec x' f); try congruence; lra.
Qed.

Lemma turn_change c r f rd0 rd0' x x' : cs_continuous c = true -> cs_rising c = normalize_angle r -> cs_falling c = normalize_angle f ->
  cs_bump c = Rlt_bool (normalize_angle r) (normalize_angle f) ->
  cal_reading c x rd0 <> cal_reading c x' rd0' ->
  ((if cal_reading c x' rd0' then x < x' else x' <= x) -> exists k, between x x' (r + 2 * PI * IZR k)) /\
  ((if cal_reading c x' rd0' then x' <= x else x < x') -> exists k, between x x' (f + 2 * PI * IZR k)).
Proof.
  intros HC HR HF HB D.
  pose proof (turn_reading c r f rd0 x HC HR HF HB) as T. pose proof (turn_reading c r f rd0' x' HC HR HF HB) as T'. cbv zeta in T, T'.
  destruct (norm_turns r) as [kr Er]. destruct (norm_turns f) as [kf Ef].
  set (rn := normalize_angle r) in *. set (fn := normalize_angle f) in *.
  assert (SR : forall k, rn + 2 * PI * IZR k = r + 2 * PI * IZR (k + kr)) by (intros; rewrite plus_IZR, Er; ring).
  assert (SF : forall k, fn + 2 * PI * IZR k = f + 2 * PI * IZR (k + kf)) by (intros; rewrite plus_IZR, Ef; ring).
  destruct T as [[T0 T]|[T0 T]], T' as [[T0' T']|[T0' T']]; try lra.
  - (* high inside (rn, fn) *)
    destruct (cal_reading c x rd0); destruct (cal_reading c x' rd0'); try congruence.
    + destruct T as [T _]. destruct (T eq_refl) as [k B]. assert (NB : ~ (rn + 2 * PI * IZR k < x' < fn + 2 * PI * IZR k)) by (intros Q; assert (false = true) by (apply T'; eauto); discriminate).
      split; intros Q; [exists (k + kr)%Z; rewrite <- SR|exists (k + kf)%Z; rewrite <- SF]; unfold between; lra.
    + destruct T' as [T' _]. destruct (T' eq_refl) as [k B]. assert (NB : ~ (rn + 2 * PI * IZR k < x < fn + 2 * PI * IZR k)) by (intros Q; assert (false = true) by (apply T; eauto); discriminate).
      split; intros Q; [exists (k + kr)%Z; rewrite <- SR|exists (k + kf)%Z; rewrite <- SF]; unfold between; lra.
  - (* low inside (fn, rn) *)
    destruct (cal_reading c x rd0); destruct (cal_reading c x' rd0'); try congruence.
    + destruct T' as [T' _]. destruct (T' eq_refl) as [k B]. assert (NB : ~ (fn + 2 * PI * IZR k < x < rn + 2 * PI * IZR k)) by (intros Q; assert (true = false) by (apply T; eauto); discriminate).
      split; intros Q; [exists (k + kr)%Z; rewrite <- SR|exists (k + kf)%Z; rewrite <- SF]; unfold between; lra.
    + destruct T as [T _]. destruct (T eq_refl) as [k B]. assert (NB : ~ (fn + 2 * PI * IZR k < x' < rn + 2 * PI * IZR k)) by (intros Q; assert (true = false) by (apply T'; eauto); discriminate).
      split; intros Q; [exists (k + kr)%Z; rewrite <- SR|exists (k + kf)%Z; rewrite <- SF]; unfold between; lra.
Qed.

Lemma never_unset dbg u cs J before after : cal_history dbg u cs J before after -> forall n,
  (a_rising_valid (after n) = true -> a_rising_valid (after (S n)) = true) /\
  (a_falling_valid (after n) = true -> a_falling_valid (after (S n)) = true).
Proof.
  intros H n. destruct (always dbg u cs J before after H) as [g1 [g2 [g3 [g4 [b1 [b2 [c0 [E0 [EC [GI [R0 [SE C]]]]]]]]]]]].
  destruct (later dbg u cs J before after H c0 n GI (C n)) as [_ [_ [K1 K2]]]. cbv zeta in K1, K2.
  destruct (Bool.bool_dec (a_calibration_reading (after (S n))) (a_calibration_reading (after n))) as [E|E].
  - destruct (K1 E) as [Q1 [_ [Q2 _]]]. rewrite Q1, Q2. auto.
  - destruct (K2 E) as [[Q1 [_ [Q2 _]]]|[Q1 [_ [Q2 _]]]]; rewrite Q1, Q2; auto.
Qed.

Definition crossed_rising (r p p' : R) : Prop := p <= r < p' \/ p' <= r < p.
Definition crossed_falling (f p p' : R) : Prop := p < f <= p' \/ p' < f <= p.

Definition rising_recorded (a0 a a' : actuator R) : Prop :=
  a_rising_valid a' = true /\ a_last_rising a' = a_position a0 /\ a_falling_valid a' = a_falling_valid a /\ a_last_falling a' = a_last_falling a.
Definition falling_recorded (a0 a a' : actuator R) : Prop :=
  a_falling_valid a' = true /\ a_last_falling a' = a_position a0 /\ a_rising_valid a' = a_rising_valid a /\ a_last_rising a' = a_last_rising a.

Lemma linear_edges dbg u cs J before after : cal_history dbg u cs J before after -> ~ continuous u ->
  (rising_of u <> None \/ falling_of u <> None) -> forall n,
  a_calibration_reading (after (S n)) <> a_calibration_reading (after n) ->
  match rising_of u with
  | Some r => rising_recorded (before n) (after n) (after (S n)) /\ crossed_rising r (cpos (J n)) (cpos (J (S n)))
  | None => match falling_of u with
            | Some f => falling_recorded (before n) (after n) (after (S n)) /\ crossed_falling f (cpos (J n)) (cpos (J (S n)))
            | None => False
            end
  end.
Proof.
  intros H HC HS n D.
  destruct (always dbg u cs J before after H) as [g1 [g2 [g3 [g4 [b1 [b2 [c0 [E0 [EC [GI [R0 [SE C]]]]]]]]]]]].
  destruct (later dbg u cs J before after H c0 n GI (C n)) as [Q [_ [_ K2]]]. cbv zeta in Q, K2. specialize (K2 D).
  assert (RD : exists rd0, a_calibration_reading (after n) = cal_reading c0 (cpos (J n)) rd0).
  { destruct n as [|n]; [eexists; exact R0|]. destruct (later dbg u cs J before after H c0 n GI (C n)) as [Q' _]. eexists; exact Q'. }
  destruct RD as [rd0 RD].
  assert (HJ : js_joint (J 0%nat) = Some u) by (destruct H as [_ [HJ _]]; apply HJ).
  rewrite E0 in EC. set (rd := a_calibration_reading (after n)) in *. rewrite RD, Q in D.
  destruct (config_linear _ _ _ _ _ _ _ _ _ _ HJ HC EC) as [P0 [P1 P2]].
  assert (D' : cal_reading c0 (cpos (J n)) rd0 <> cal_reading c0 (cpos (J (S n))) rd) by congruence.
  pose proof (linear_change c0 _ _ rd0 rd _ _ P0 P1 P2 HS D') as W. rewrite <- Q in W.
  set (rd' := a_calibration_reading (after (S n))) in *. unfold rising_recorded, falling_recorded, crossed_rising, crossed_falling.
  destruct (rising_of u) as [r|] eqn:ER; [|destruct (falling_of u) as [f|] eqn:EF; [|exact W]];
    (destruct K2 as [[A1 [A2 [A3 [A4 A5]]]]|[A1 [A2 [A3 [A4 A5]]]]]; [try (split; [repeat split; assumption|destruct rd'; lra])|try (split; [repeat split; assumption|destruct rd'; lra])];
     exfalso; destruct rd'; lra).
Qed.

(** ** C52 *)
(** The flag of a joint with travel limits: above the rising reference, or below the falling one. *)
Theorem C52_reading_limited : forall dbg u cs J before after, cal_history dbg u cs J before after -> ~ continuous u -> forall n,
  (forall r, rising_of u = Some r -> (a_calibration_reading (after n) = true <-> r < cpos (J n))) /\
  (forall f, rising_of u = None -> falling_of u = Some f -> (a_calibration_reading (after n) = true <-> cpos (J n) < f)) /\
  (rising_of u = None -> falling_of u = None -> a_calibration_reading (after n) = a_calibration_reading (before 0%nat)).
Proof.
  intros dbg u cs J before after H HC n.
  destruct (always dbg u cs J before after H) as [g1 [g2 [g3 [g4 [b1 [b2 [c0 [E0 [EC [GI [R0 [SE C]]]]]]]]]]]].
  assert (HJ : js_joint (J 0%nat) = Some u) by (destruct H as [_ [HJ _]]; apply HJ).
  rewrite E0 in EC. destruct (config_linear _ _ _ _ _ _ _ _ _ _ HJ HC EC) as [K0 [K1 K2]].
  assert (RD : exists rd0, a_calibration_reading (after n) = cal_reading c0 (cpos (J n)) rd0 /\
     (rising_of u = None -> falling_of u = None -> rd0 = a_calibration_reading (before 0%nat))).
  { induction n as [|n [rd0 [IH1 IH2]]]; [eexists; split; [exact R0|auto]|].
    destruct (later dbg u cs J before after H c0 n GI (C n)) as [Q _]. eexists; split; [exact Q|].
    intros N1 N2. rewrite IH1. rewrite N1 in K1. rewrite N2 in K2. unfold cal_reading. rewrite K0, K1, K2. auto. }
  destruct RD as [rd0 [RD RN]]. unfold cal_reading in RD. rewrite K0 in RD.
  split; [|split].
  - intros r E. rewrite E in K1. destruct K1 as [K1 K3]. rewrite K1, K3 in RD. rewrite RD.
    change (nltb r (cpos (J n))) with (Rlt_bool r (cpos (J n))). destruct (Rlt_bool_spec r (cpos (J n))); split; intros; auto; [discriminate|lra].
  - intros f E E'. rewrite E in K1. rewrite E' in K2. destruct K2 as [K2 K3]. rewrite K1, K2, K3 in RD. rewrite RD.
    change (nltb (cpos (J n)) f) with (Rlt_bool (cpos (J n)) f). destruct (Rlt_bool_spec (cpos (J n)) f); split; intros; auto; [discriminate|lra].
  - intros N1 N2. rewrite N1 in K1. rewrite N2 in K2. rewrite K1, K2 in RD. rewrite RD. auto.
Qed.

(** The flag of a continuous joint: high on the way up from a rising reference to the next falling one, low from a falling
    reference to the next rising one. *)
Theorem C52_reading_continuous : forall dbg u cs J before after r f, cal_history dbg u cs J before after -> continuous u ->
  turn_references u r f -> forall n r' f',
  rising_at u r' -> falling_at u f' ->
  (r' < cpos (J n) < f' -> f' - r' < 2 * PI -> a_calibration_reading (after n) = true) /\
  (f' < cpos (J n) < r' -> r' - f' < 2 * PI -> a_calibration_reading (after n) = false).
Proof.
  intros dbg u cs J before after r f H HC T n r' f' Hr Hf.
  destruct (always dbg u cs J before after H) as [g1 [g2 [g3 [g4 [b1 [b2 [c0 [E0 [EC [GI [R0 [SE C]]]]]]]]]]]].
  assert (HJ : js_joint (J 0%nat) = Some u) by (destruct H as [_ [HJ _]]; apply HJ).
  rewrite E0 in EC. destruct (config_turn _ _ _ _ _ _ _ _ _ _ r f HJ HC T EC) as [K0 [K1 [K2 K3]]].
  assert (RD : exists rd0, a_calibration_reading (after n) = cal_reading c0 (cpos (J n)) rd0).
  { destruct n as [|n]; [eexists; exact R0|]. destruct (later dbg u cs J before after H c0 n GI (C n)) as [Q _]. eexists; exact Q. }
  destruct RD as [rd0 RD]. rewrite RD.
  assert (TU : forall r1 f1, turn_references u r1 f1 -> r1 = r /\ f1 = f).
  { intros r1 f1 T1. destruct T, T1; split; congruence. }
  destruct Hr as [[N _]|[_ [r1 [f1 [k [T1 ->]]]]]]; [tauto|]. destruct (TU _ _ T1) as [-> ->].
  destruct Hf as [[N _]|[_ [r2 [f2 [l [T2 ->]]]]]]; [tauto|]. destruct (TU _ _ T2) as [-> ->].
  pose proof (turn_reading c0 r f rd0 (cpos (J n)) K0 K1 K2 K3) as TR. cbv zeta in TR.
  destruct (norm_turns r) as [kr Er]. destruct (norm_turns f) as [kf Ef]. pose proof (norm_range r). pose proof (norm_range f). pose proof PI_RGT_0.
  set (rn := normalize_angle r) in *. set (fn := normalize_angle f) in *. set (x := cpos (J n)) in *.
  replace (r + 2 * PI * IZR k) with (rn + 2 * PI * IZR (k - kr)) by (rewrite minus_IZR, Er; ring).
  replace (f + 2 * PI * IZR l) with (fn + 2 * PI * IZR (l - kf)) by (rewrite minus_IZR, Ef; ring).
  set (k' := (k - kr)%Z). set (l' := (l - kf)%Z). clearbody k' l'.
  assert (KEY : forall d : Z, ((d < 0)%Z -> IZR d <= -1) /\ ((0 < d)%Z -> 1 <= IZR d)) by (intros d; split; intros; apply IZR_le; lia).
  assert (KEY2 : forall d : Z, ((1 < d)%Z -> 2 <= IZR d) /\ ((d < -1)%Z -> IZR d <= -2)) by (intros d; split; intros; apply IZR_le; lia).
  assert (DD : IZR l' = IZR k' + IZR (l' - k')) by (rewrite minus_IZR; ring). destruct (KEY (l' - k')%Z) as [D1 D2]. destruct (KEY2 (l' - k')%Z) as [D3 D4].
  assert (CASES : (l' - k' < -1 \/ l' - k' = -1 \/ l' - k' = 0 \/ l' - k' = 1 \/ 1 < l' - k')%Z) by lia.
  destruct TR as [[T0 TR]|[T0 TR]].
  - split; intros B W.
    + apply TR. exists k'. destruct CASES as [Q|[Q|[Q|[Q|Q]]]]; try rewrite Q in DD; try (specialize (D3 Q)); try (specialize (D4 Q)); nra.
    + destruct (cal_reading c0 x rd0) eqn:EX; [|reflexivity]. exfalso. destruct TR as [TR _]. destruct (TR eq_refl) as [i TX].
      assert (DI : IZR i = IZR k' + IZR (i - k')) by (rewrite minus_IZR; ring). destruct (KEY (i - k')%Z) as [I1 I2].
      assert (CI : (i - k' < 0 \/ i - k' = 0 \/ 0 < i - k')%Z) by lia.
      destruct CASES as [Q|[Q|[Q|[Q|Q]]]]; try rewrite Q in DD; try (specialize (D3 Q)); try (specialize (D4 Q)); try nra;
      destruct CI as [Q'|[Q'|Q']]; try rewrite Q' in DI; try (specialize (I1 Q')); try (specialize (I2 Q')); nra.
  - split; intros B W.
    + destruct (cal_reading c0 x rd0) eqn:EX; [reflexivity|]. exfalso. destruct TR as [TR _]. destruct (TR eq_refl) as [i TX].
      assert (DI : IZR i = IZR k' + IZR (i - k')) by (rewrite minus_IZR; ring). destruct (KEY (i - k')%Z) as [I1 I2].
      assert (CI : (i - k' < 0 \/ i - k' = 0 \/ i - k' = 1 \/ 1 < i - k')%Z) by lia. destruct (KEY2 (i - k')%Z) as [I3 I4].
      destruct CASES as [Q|[Q|[Q|[Q|Q]]]]; try rewrite Q in DD; try (specialize (D3 Q)); try (specialize (D4 Q)); try nra;
      destruct CI as [Q'|[Q'|[Q'|Q']]]; try rewrite Q' in DI; try (specialize (I1 Q')); try (specialize (I3 Q')); nra.
    + apply TR. exists k'. destruct CASES as [Q|[Q|[Q|[Q|Q]]]]; try rewrite Q in DD; try (specialize (D3 Q)); try (specialize (D4 Q)); nra.
Qed.

(** Edges: nothing is recorded while the flag does not change (in particular not at the first call); when it changes
    exactly one edge is recorded, at the actuator position of the call before, and the joint has passed a reference of
    that kind between the two calls. *)
Theorem C52_edges : forall dbg u cs J before after, cal_history dbg u cs J before after ->
  (rising_of u <> None \/ falling_of u <> None) ->
  same_edges (before 0%nat) (after 0%nat) /\
  forall n,
  (a_calibration_reading (after (S n)) = a_calibration_reading (after n) -> same_edges (after n) (after (S n))) /\
  (a_calibration_reading (after (S n)) <> a_calibration_reading (after n) ->
    (a_rising_valid (after (S n)) = true /\ a_last_rising (after (S n)) = a_position (before n) /\
     a_falling_valid (after (S n)) = a_falling_valid (after n) /\ a_last_falling (after (S n)) = a_last_falling (after n) /\
     exists x, rising_at u x /\ between (cpos (J n)) (cpos (J (S n))) x)
    \/
    (a_falling_valid (after (S n)) = true /\ a_last_falling (after (S n)) = a_position (before n) /\
     a_rising_valid (after (S n)) = a_rising_valid (after n) /\ a_last_rising (after (S n)) = a_last_rising (after n) /\
     exists x, falling_at u x /\ between (cpos (J n)) (cpos (J (S n))) x)).
Proof.
  intros dbg u cs J before after H HS.
  destruct (always dbg u cs J before after H) as [g1 [g2 [g3 [g4 [b1 [b2 [c0 [E0 [EC [GI [R0 [SE C]]]]]]]]]]]].
  split; [exact SE|]. intros n.
  destruct (later dbg u cs J before after H c0 n GI (C n)) as [Q [_ [K1 K2]]]. cbv zeta in Q, K1, K2.
  split; [exact K1|]. intros D. specialize (K2 D). clear K1.
  assert (RD : exists rd0, a_calibration_reading (after n) = cal_reading c0 (cpos (J n)) rd0).
  { destruct n as [|n]; [eexists; exact R0|]. destruct (later dbg u cs J before after H c0 n GI (C n)) as [Q' _]. eexists; exact Q'. }
  destruct RD as [rd0 RD].
  assert (HJ : js_joint (J 0%nat) = Some u) by (destruct H as [_ [HJ _]]; apply HJ).
  rewrite E0 in EC. set (rd := a_calibration_reading (after n)) in *. rewrite RD, Q in D.
  assert (HC : continuous u \/ ~ continuous u) by (unfold continuous; destruct (uj_type u); (left; reflexivity) || (right; discriminate)).
  destruct HC as [HC|HC].
  - assert (T : exists r f, turn_references u r f).
    { destruct (rising_of u) as [r|] eqn:ER; destruct (falling_of u) as [f|] eqn:EF; try (destruct HS; congruence).
      - exists r, f. constructor; auto.
      - exists r, (r + PI). apply refs_rising; auto.
      - exists (f + PI), f. apply refs_falling; auto. }
    destruct T as [r [f T]]. destruct (config_turn _ _ _ _ _ _ _ _ _ _ r f HJ HC T EC) as [P0 [P1 [P2 P3]]].
    assert (D' : cal_reading c0 (cpos (J n)) rd0 <> cal_reading c0 (cpos (J (S n))) rd) by congruence.
    destruct (turn_change c0 r f rd0 rd _ _ P0 P1 P2 P3 D') as [W1 W2]. rewrite <- Q in W1, W2.
    destruct K2 as [[A1 [A2 [A3 [A4 A5]]]]|[A1 [A2 [A3 [A4 A5]]]]]; [left|right]; do 4 (split; [assumption|]).
    + destruct (W1 A5) as [k B]. exists (r + 2 * PI * IZR k). split; [|exact B]. right. split; [exact HC|]. eauto.
    + destruct (W2 A5) as [k B]. exists (f + 2 * PI * IZR k). split; [|exact B]. right. split; [exact HC|]. eauto.
  - assert (D0 : a_calibration_reading (after (S n)) <> rd) by congruence.
    pose proof (linear_edges dbg u cs J before after H HC HS n D0) as W. unfold rising_recorded, falling_recorded in W.
    destruct (rising_of u) as [r|] eqn:ER.
    + left. destruct W as [[A1 [A2 [A3 A4]]] W]. do 4 (split; [assumption|]). exists r. split; [left; auto|]. unfold between, crossed_rising in *; lra.
    + destruct (falling_of u) as [f|] eqn:EF; [|destruct W]. right. destruct W as [[A1 [A2 [A3 A4]]] W]. do 4 (split; [assumption|]).
      exists f. split; [left; auto|]. unfold between, crossed_falling in *; lra.
Qed.

(** A continuous joint without any reference reads values that were never set: the flag depends on them. *)
Theorem C52_continuous_without_reference_indeterminate : forall dbg u j a, js_joint j = Some u -> continuous u ->
  rising_of u = None -> falling_of u = None ->
  exists g1 g2 g1' g2' c1 a1 c2 a2,
    (forall g3 g4 b1 b2, exists s, simulateJointCalibration dbg (new_calsim g1 g2 g3 g4 b1 b2) j a = Ok (s, a1)) /\
    simulateJointCalibration dbg (new_calsim g1 g2 0 0 false false) j a = Ok (c1, a1) /\
    simulateJointCalibration dbg (new_calsim g1' g2' 0 0 false false) j a = Ok (c2, a2) /\
    a_calibration_reading a1 = true /\ a_calibration_reading a2 = false.
Proof.
  intros dbg u j a EJ HC HR HF. pose proof PI_RGT_0.
  assert (G : forall g1 g2 g3 g4 b1 b2, GetJointCalibrationInfo dbg (new_calsim g1 g2 g3 g4 b1 b2) j =
    Ok (mkCalsim false false false true (normalize_angle g1) (normalize_angle g2) true (Rlt_bool (normalize_angle g1) (normalize_angle g2)) b2 g3 g4)).
  { intros. unfold GetJointCalibrationInfo. rewrite EJ. assert (CA : cassert dbg true = Ok tt) by (destruct dbg; reflexivity). rewrite CA. cbn [bind].
    unfold continuous in HC. rewrite HC. unfold rising_of, falling_of in *. destruct (uj_calib u) as [[r f]|]; simpl in *; subst; reflexivity. }
  set (x := cpos j). set (y := normalize_angle x). pose proof (norm_range x) as Y. fold y in Y.
  assert (NN : forall z, - PI < z <= PI -> normalize_angle z = z) by (intros z Hz; apply (norm_unique z z 0); [exact Hz|simpl; ring]).
  (* both references at 0: always high; references around y for low *)
  assert (LOW : exists g1' g2', - PI < g1' <= PI /\ - PI < g2' <= PI /\
     (if Rlt_bool g1' g2' then (Rlt_bool g1' y && Rlt_bool y g2')%bool else negb (Rlt_bool y g1' && Rlt_bool g2' y)) = false).
  { destruct (Rlt_le_dec y 0) as [N|N].
    - exists 0, PI. repeat split; try lra. rewrite (Rlt_bool_true 0 PI) by lra. rewrite (Rlt_bool_false 0 y) by lra. reflexivity.
    - exists (- PI / 2), (- PI / 4). repeat split; try lra. rewrite (Rlt_bool_true (- PI / 2)) by lra. rewrite (Rlt_bool_false y) by lra. apply andb_false_r. }
  destruct LOW as [g1' [g2' [B1 [B2 L]]]].
  exists 0, 0, g1', g2'. eexists. eexists. eexists. eexists.
  unfold simulateJointCalibration. cbn [cs_got_info new_calsim]. setoid_rewrite G. cbn [bind cs_initialized].
  unfold cal_reading. cbn [cs_continuous cs_bump cs_rising cs_falling].
  change (nsub (position j) (reference_position j)) with x. fold y. rewrite !NN by (auto; lra).
  rewrite (Rlt_bool_false 0 0) by lra.
  change (nltb y 0) with (Rlt_bool y 0). change (nltb 0 y) with (Rlt_bool 0 y).
  change (nltb g1' y) with (Rlt_bool g1' y). change (nltb y g2') with (Rlt_bool y g2'). change (nltb y g1') with (Rlt_bool y g1'). change (nltb g2' y) with (Rlt_bool g2' y).
  rewrite L.
  replace (Rlt_bool y 0 && Rlt_bool 0 y)%bool with false by (destruct (Rlt_bool_spec y 0); destruct (Rlt_bool_spec 0 y); auto; lra).
  split; [intros; eexists; reflexivity|]. split; [reflexivity|]. split; [reflexivity|]. split; reflexivity.
Qed.

(** ** C53 *)
(** Valid flags stay set. *)
Theorem C53_valid_is_forever : forall dbg u cs J before after, cal_history dbg u cs J before after -> forall n m, (n <= m)%nat ->
  (a_rising_valid (after n) = true -> a_rising_valid (after m) = true) /\
  (a_falling_valid (after n) = true -> a_falling_valid (after m) = true).
Proof.
  intros dbg u cs J before after H n m L. induction L as [|m L [I1 I2]]; [auto|].
  destruct (never_unset _ _ _ _ _ _ H m) as [N1 N2]. auto.
Qed.


(** A joint with travel limits and a rising reference records rising edges only, has recorded one exactly if the
    joint has crossed the reference, and remembers where the actuator was just before the last crossing. *)
Theorem C53_rising_only : forall dbg u cs J before after r, cal_history dbg u cs J before after -> ~ continuous u -> rising_of u = Some r -> forall n,
  a_falling_valid (after n) = a_falling_valid (before 0%nat) /\ a_last_falling (after n) = a_last_falling (before 0%nat) /\
  (a_rising_valid (after n) = true <->
   a_rising_valid (before 0%nat) = true \/ exists k, (k < n)%nat /\ crossed_rising r (cpos (J k)) (cpos (J (S k)))) /\
  (forall k, (k < n)%nat -> crossed_rising r (cpos (J k)) (cpos (J (S k))) ->
     (forall l, (k < l < n)%nat -> ~ crossed_rising r (cpos (J l)) (cpos (J (S l)))) ->
     a_last_rising (after n) = a_position (before k)).
Proof.
  intros dbg u cs J before after r H HC HR n.
  assert (HS : rising_of u <> None \/ falling_of u <> None) by (left; congruence).
  destruct (C52_edges _ _ _ _ _ _ H HS) as [[S1 [S2 [S3 S4]]] ED].
  pose proof (fun n => proj1 (C52_reading_limited _ _ _ _ _ _ H HC n) r HR) as RD.
  assert (CH : forall n, a_calibration_reading (after (S n)) <> a_calibration_reading (after n) <-> crossed_rising r (cpos (J n)) (cpos (J (S n)))).
  { intros i. pose proof (RD i) as R1. pose proof (RD (S i)) as R2. unfold crossed_rising.
    destruct (a_calibration_reading (after i)); destruct (a_calibration_reading (after (S i))); split; intros Q; try congruence.
    - exfalso. destruct R1 as [R1 _], R2 as [R2 _]. specialize (R1 eq_refl). specialize (R2 eq_refl). lra.
    - assert (X : ~ r < cpos (J (S i))) by (intros X; apply R2 in X; discriminate). destruct R1 as [R1 _]. specialize (R1 eq_refl). lra.
    - assert (X : ~ r < cpos (J i)) by (intros X; apply R1 in X; discriminate). destruct R2 as [R2 _]. specialize (R2 eq_refl). lra.
    - exfalso. assert (X1 : ~ r < cpos (J i)) by (intros X; apply R1 in X; discriminate). assert (X2 : ~ r < cpos (J (S i))) by (intros X; apply R2 in X; discriminate). lra. }
  induction n as [|n [I1 [I2 [I3 I4]]]].
  - rewrite S1, S3, S4. split; [reflexivity|]. split; [reflexivity|]. split.
    + split; [auto|]. intros [Q|[k [Q _]]]; [auto|lia].
    + intros k Q. lia.
  - destruct (ED n) as [E1 _].
    destruct (Bool.bool_dec (a_calibration_reading (after (S n))) (a_calibration_reading (after n))) as [E|E].
    + destruct (E1 E) as [F1 [F2 [F3 F4]]]. rewrite F1, F2, F3, F4, I1, I2.
      assert (NC : ~ crossed_rising r (cpos (J n)) (cpos (J (S n)))) by (intros X; apply CH in X; auto).
      split; [reflexivity|]. split; [reflexivity|]. split.
      * rewrite I3. split; (intros [Q|[k [Q1 Q2]]]; [auto|]); right; exists k; (split; [|exact Q2]); [lia|].
        destruct (Nat.eq_dec k n); [subst; tauto|lia].
      * intros k L K NL. assert (k <> n) by (intros ->; tauto). apply I4; [lia|exact K|]. intros l Hl. apply NL. lia.
    + pose proof (linear_edges dbg u cs J before after H HC HS n E) as LE. rewrite HR in LE. destruct LE as [[A1 [A2 [A3 A4]]] _].
      rewrite A1, A2, A3, A4, I1, I2. split; [reflexivity|]. split; [reflexivity|]. split.
      * split; [|auto]. intros _. right. exists n. split; [lia|]. apply CH, E.
      * intros k L K NL. destruct (Nat.eq_dec k n); [subst; reflexivity|]. exfalso. apply (NL n); [lia|]. apply CH, E.
Qed.

(** ... and likewise with only a falling reference. *)
Theorem C53_falling_only : forall dbg u cs J before after r, cal_history dbg u cs J before after -> ~ continuous u -> rising_of u = None -> falling_of u = Some r -> forall n,
  a_rising_valid (after n) = a_rising_valid (before 0%nat) /\ a_last_rising (after n) = a_last_rising (before 0%nat) /\
  (a_falling_valid (after n) = true <->
   a_falling_valid (before 0%nat) = true \/ exists k, (k < n)%nat /\ crossed_falling r (cpos (J k)) (cpos (J (S k)))) /\
  (forall k, (k < n)%nat -> crossed_falling r (cpos (J k)) (cpos (J (S k))) ->
     (forall l, (k < l < n)%nat -> ~ crossed_falling r (cpos (J l)) (cpos (J (S l)))) ->
     a_last_falling (after n) = a_position (before k)).
Proof.
  intros dbg u cs J before after r H HC HN HR n.
  assert (HS : rising_of u <> None \/ falling_of u <> None) by (right; congruence).
  destruct (C52_edges _ _ _ _ _ _ H HS) as [[S1 [S2 [S3 S4]]] ED].
  pose proof (fun n => proj1 (proj2 (C52_reading_limited _ _ _ _ _ _ H HC n)) r HN HR) as RD.
  assert (CH : forall n, a_calibration_reading (after (S n)) <> a_calibration_reading (after n) <-> crossed_falling r (cpos (J n)) (cpos (J (S n)))).
  { intros i. pose proof (RD i) as R1. pose proof (RD (S i)) as R2. unfold crossed_falling.
    destruct (a_calibration_reading (after i)); destruct (a_calibration_reading (after (S i))); split; intros Q; try congruence.
    - exfalso. destruct R1 as [R1 _], R2 as [R2 _]. specialize (R1 eq_refl). specialize (R2 eq_refl). lra.
    - assert (X : ~ cpos (J (S i)) < r) by (intros X; apply R2 in X; discriminate). destruct R1 as [R1 _]. specialize (R1 eq_refl). lra.
    - assert (X : ~ cpos (J i) < r) by (intros X; apply R1 in X; discriminate). destruct R2 as [R2 _]. specialize (R2 eq_refl). lra.
    - exfalso. assert (X1 : ~ cpos (J i) < r) by (intros X; apply R1 in X; discriminate). assert (X2 : ~ cpos (J (S i)) < r) by (intros X; apply R2 in X; discriminate). lra. }
  induction n as [|n [I1 [I2 [I3 I4]]]].
  - rewrite S3, S1, S2. split; [reflexivity|]. split; [reflexivity|]. split.
    + split; [auto|]. intros [Q|[k [Q _]]]; [auto|lia].
    + intros k Q. lia.
  - destruct (ED n) as [E1 _].
    destruct (Bool.bool_dec (a_calibration_reading (after (S n))) (a_calibration_reading (after n))) as [E|E].
    + destruct (E1 E) as [F1 [F2 [F3 F4]]]. rewrite F1, F2, F3, F4, I1, I2.
      assert (NC : ~ crossed_falling r (cpos (J n)) (cpos (J (S n)))) by (intros X; apply CH in X; auto).
      split; [reflexivity|]. split; [reflexivity|]. split.
      * rewrite I3. split; (intros [Q|[k [Q1 Q2]]]; [auto|]); right; exists k; (split; [|exact Q2]); [lia|].
        destruct (Nat.eq_dec k n); [subst; tauto|lia].
      * intros k L K NL. assert (k <> n) by (intros ->; tauto). apply I4; [lia|exact K|]. intros l Hl. apply NL. lia.
    + pose proof (linear_edges dbg u cs J before after H HC HS n E) as LE. rewrite HN, HR in LE. destruct LE as [[A1 [A2 [A3 A4]]] _].
      rewrite A1, A2, A3, A4, I1, I2. split; [reflexivity|]. split; [reflexivity|]. split.
      * split; [|auto]. intros _. right. exists n. split; [lia|]. apply CH, E.
      * intros k L K NL. destruct (Nat.eq_dec k n); [subst; reflexivity|]. exfalso. apply (NL n); [lia|]. apply CH, E.
Qed.


(** Non-vacuity: histories exist for every joint and every motion. *)
Lemma histories_exist dbg u (p ap : nat -> R) (a0 : actuator R) : exists cs J before after,
  cal_history dbg u cs J before after /\ (forall n, cpos (J n) = p n) /\ (forall n, a_position (before n) = ap n) /\ same_edges a0 (before 0%nat).
Proof.
  pose (J := fun n : nat => set_js_joint (Some u) (set_position (p n) (set_reference_position 0 (new_jointstate 0)))).
  pose (step := fun n (s : calsim R * actuator R) => match simulateJointCalibration dbg (fst s) (J n) (set_a_position (ap n) (snd s)) with Ok x => x | _ => s end).
  pose (st := fix st n := match n with O => (new_calsim 0 0 0 0 false false, a0) | S k => step k (st k) end).
  assert (TOT : forall c j a, js_joint j = Some u -> exists c' a', simulateJointCalibration dbg c j a = Ok (c', a')).
  { intros c j a E. unfold simulateJointCalibration. destruct (cs_got_info c); [cbn [bind]; eauto|].
    destruct (info_total dbg u j c E) as [c0 [Q _]]. rewrite Q. cbn [bind]. eauto. }
  exists (fun n => fst (st n)), J, (fun n => set_a_position (ap n) (snd (st n))), (fun n => snd (st (S n))).
  split; [split; [|split; [|split]]|split; [|split]].
  - exists 0, 0, 0, 0, false, false. reflexivity.
  - reflexivity.
  - intros n. change (st (S n)) with (step n (st n)). unfold step. destruct (TOT (fst (st n)) (J n) (set_a_position (ap n) (snd (st n))) eq_refl) as [c' [a' E]]. 
    rewrite E. reflexivity.
  - intros n. cbn [st]. unfold same_edges. cbn. repeat split.
  - intros n. unfold cpos, J. cbn. ring.
  - reflexivity.
  - cbn. unfold same_edges. repeat split.
Qed.

Example C53_ex : exists cs J before after,
  cal_history true (mkUjoint "x" JREVOLUTE None None (Some (mkCalib (Some 1) None))) cs J before after /\ 
  a_rising_valid (after 0%nat) = false /\ a_rising_valid (after 1%nat) = true /\ a_last_rising (after 1%nat) = 5.
Proof.
  destruct (histories_exist true (mkUjoint "x" JREVOLUTE None None (Some (mkCalib (Some 1) None))) (fun n => 2 * INR n) (fun n => 5 + INR n) (new_actuator 0)) as [cs [J [b [a [H [P [Q [E1 [E2 [E3 E4]]]]]]]]]].
  exists cs, J, b, a. split; [exact H|].
  assert (NC : ~ continuous (mkUjoint "x" JREVOLUTE None None (Some (mkCalib (Some 1) None)))) by (intros X; discriminate X).
  assert (CR : crossed_rising 1 (cpos (J 0%nat)) (cpos (J 1%nat))) by (rewrite !P; unfold crossed_rising; simpl; lra).
  destruct (C53_rising_only true _ cs J b a 1 H NC eq_refl 0%nat) as [_ [_ [V0 _]]].
  destruct (C53_rising_only true _ cs J b a 1 H NC eq_refl 1%nat) as [_ [_ [V1 L1]]].
  split; [|split].
  - destruct (a_rising_valid (a 0%nat)); [|reflexivity]. destruct V0 as [V0 _]. destruct (V0 eq_refl) as [K|[k [K _]]]; [|lia]. rewrite E1 in K. discriminate.
  - apply V1. right. exists 0%nat. split; [lia|exact CR].
  - rewrite (L1 0%nat); [|lia|exact CR|lia]. rewrite Q. simpl. lra.
Qed.
