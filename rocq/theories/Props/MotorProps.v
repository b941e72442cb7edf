(** C74: what a motor is ever commanded, from the controllers' callbacks through the enforced limits to the actuator. *)
From Coq Require Import List String Arith Bool ZArith Lia Reals Lra.
From Flocq Require Import Core.Core IEEE754.BinarySingleNaN.
From Verif.Model Require Import Base Num Joint Hardware Xml Transmission Simple Wrist Belt Gripper Scheduler Controller Manager Robot Builtin System.
From Verif.Spec Require Import JointSpec ManagerSpec LocalSpec RobotSpec SystemSpec.
From Verif.Proofs Require Import NumFacts JointProofs Locality OverLocal RobotProofs SystemProofs CycleTotal.
From Verif.Props Require Import JointProps ManagerProps RobotProps SystemProps IndependenceProps.
Import ListNotations.

Section General.
Context {T X : Type} {N : Num T} {G : Trig T}.
Variables (dbg : bool) (P : parsers T) (L : loader (transmission T)).
Hypothesis HL : forall c t, ld_create L c = Some t -> is_new t.
Notation K := (builtin dbg P).
Variables (urdf : xml -> option (string -> option (ujoint T))) (config : xml) (g : T) (hw : hwif) (mem0 : mem T) (s : rstate) (p0 : plant (transmission T) T).
Hypothesis HI : cm_initXml K dbg L urdf config g hw mem0 = Ok (Some (s, p0)).
Hypothesis HU : forall e, In e (ChildElements config "transmission") -> usable L e.
Variables (tick : X -> Z * X) (cb : ptr -> callback -> X -> mem T -> X * mem T) (pm pj : Z).
Hypothesis HC : keeps_joints cb.
Let H : hooks (sysw (transmission T) T X) := sys_hooks K dbg s tick cb pm pj.

(** a transmission that has its actuators for itself, among those that were run with these states *)
Lemma one_motor ts ts' ms ma i t0 : all_fit false dbg P ts (rs_in s) (rs_out s) -> Forall2 same_parameters (pl_ts p0) ts ->
  propagateJointEffortToActuatorEffort K s ts ms = Ok (ts', ma) -> nth_error (pl_ts p0) i = Some t0 -> exclusive (rs_in s) i ->
  exists t as_ js t1 mt, same_parameters t0 t /\ ready false t /\ fits dbg P t as_ js /\
    nth_error (rs_in s) i = Some as_ /\ nth_error (rs_out s) i = Some js /\
    tr_effort K t js as_ ms = Ok (t1, mt) /\ (forall p, In p as_ -> m_act ma p = m_act mt p).
Proof.
  intros (RD & FI & FO) PA EF X0 EX.
  assert (exists t, nth_error ts i = Some t /\ same_parameters t0 t) as (t & NT & SP).
  { clear - PA X0. revert i X0. induction PA as [|x y a b Q PA IH]; intros [|i] X; try discriminate; cbn in *; [injection X as ->; eauto|eauto]. }
  assert (exists as_, nth_error (rs_in s) i = Some as_ /\ List.length as_ = List.length (tr_actuators K t)) as (as_ & NA & LA).
  { clear - FI NT. revert i NT. induction FI as [|x y a b Q FI IH]; intros [|i] X; try discriminate; cbn in *; [injection X as ->; eauto|eauto]. }
  assert (exists js, nth_error (rs_out s) i = Some js /\ List.length js = List.length (tr_joints K t)) as (js & NJ & LJ).
  { clear - FO NT. revert i NT. induction FO as [|x y a b Q FO IH]; intros [|i] X; try discriminate; cbn in *; [injection X as ->; eauto|eauto]. }
  destruct (C72_effort_one_by_one dbg P s _ _ _ _ EF) as (_ & _ & _ & D). destruct (D i t as_ js NT NA NJ EX) as (t1 & mt & F & _ & MA).
  exists t, as_, js, t1, mt. split; [exact SP|]. split; [apply (proj1 (Forall_forall _ _) RD); eapply nth_error_In; eauto|]. split; [split; assumption|].
  auto.
Qed.
Lemma outputs_in_range : forall o q, In o (rs_out s) -> In q o -> q < rs_size s.
Proof. destruct (fine_start dbg P L HL urdf config g hw mem0 s p0 HI HU) as ((_ & O & _) & _). exact O. Qed.

(** In every history, what a transmission that has its actuators for itself sent to them is what it computes, with the
    parameters it was loaded with, from its own joints' efforts after limit enforcement. *)
Theorem C74_motor_commands : forall m0 m ms ma i t0, starts p0 m0 -> history H m0 m -> In (ms, ma) (sent (sy_out (world m))) ->
  nth_error (pl_ts p0) i = Some t0 -> exclusive (rs_in s) i ->
  exists t as_ js t1 mt, same_parameters t0 t /\ ready false t /\ fits dbg P t as_ js /\
    nth_error (rs_in s) i = Some as_ /\ nth_error (rs_out s) i = Some js /\
    tr_effort K t js as_ ms = Ok (t1, mt) /\ (forall p, In p as_ -> m_act ma p = m_act mt p) /\
    (forall q, In q js -> exists j, enforceLimits j = Ok (m_js ms q)) /\ (forall q, js_joint (m_js ms q) = js_joint (m_js (pl_mem p0) q)).
Proof.
  intros m0 m ms ma i t0 ST HH IN X0 EX.
  destruct (sent_by dbg P L HL urdf config g hw mem0 s p0 HI HU tick cb pm pj HC m0 m ST HH ms ma IN) as (ts & ts' & FT & PA & SJ & EN & EF).
  destruct (one_motor ts ts' ms ma i t0 FT PA EF X0 EX) as (t & as_ & js & t1 & mt & SP & RD & FI & NA & NJ & F & MA).
  exists t, as_, js, t1, mt. repeat (split; [assumption|]). split; [|exact SJ].
  intros q I. apply EN. eapply outputs_in_range; [eapply nth_error_In; exact NJ|exact I].
Qed.
End General.

(** ** binary64 bounds *)
Local Open Scope R_scope.
Lemma abs_ord (x : B64) a : b64_ord x = Some a -> b64_ord (Babs x) = Some (Rabs a).
Proof. intros E. rewrite b64_abs_ord, E. reflexivity. Qed.
Lemma within_finite (c l : B64) : finite l -> fle (Bopp l) c -> fle c l -> finite c /\ Rabs (B2R c) <= Rabs (B2R l).
Proof.
  intros F A B. destruct (fle_inv _ _ A) as (x & y & O1 & O2 & L1). destruct (fle_inv _ _ B) as (y' & z & O2' & O3 & L2).
  rewrite O2 in O2'. injection O2' as <-. rewrite (b64_ord_finite l F) in O3. injection O3 as <-.
  rewrite b64_opp_ord, (b64_ord_finite l F) in O1. injection O1 as <-. pose proof (b64_bound l).
  assert (FC : is_finite c = true) by (apply (b64_ord_inside c y O2); lra).
  split; [exact FC|]. rewrite (b64_ord_finite c FC) in O2. injection O2 as <-. unfold Rabs. destruct (Rcase_abs (B2R c)), (Rcase_abs (B2R l)); lra.
Qed.
Lemma div_bound (c l r : B64) : finite c -> finite l -> finite r -> B2R r <> 0 -> Rabs (B2R c) <= Rabs (B2R l) ->
  fle (Babs (Bdiv mode_NE c r)) (Babs (Bdiv mode_NE l r)).
Proof.
  intros FC FL FR NZ B. rewrite (fle_ord _ _ (Rabs (satrnd (B2R c / B2R r))) (Rabs (satrnd (B2R l / B2R r)))).
  - apply satrnd_abs_le. unfold Rdiv. rewrite !Rabs_mult. apply Rmult_le_compat_r; [apply Rabs_pos|exact B].
  - apply abs_ord. apply b64_div_ord; auto.
  - apply abs_ord. apply b64_div_ord; auto.
Qed.

Lemma b64_plus_ord (x y : B64) : finite x -> finite y -> b64_ord (Bplus mode_NE x y) = Some (satrnd (B2R x + B2R y)).
Proof.
  intros Fx Fy. pose proof (Bplus_correct 53 1024 _ _ mode_NE x y Fx Fy) as C.
  change (round radix2 (SpecFloat.fexp 53 1024) (round_mode mode_NE) (B2R x + B2R y)) with (rnd64 (B2R x + B2R y)) in C.
  destruct (Rlt_bool_spec (Rabs (rnd64 (B2R x + B2R y))) (bpow radix2 1024)) as [LL|LL].
  - destruct C as [E [F _]]. rewrite b64_ord_finite by exact F. rewrite E, satrnd_in; auto.
  - destruct C as [E Sg].
    destruct (Bplus mode_NE x y) as [s|s| |s m e B] eqn:D; try discriminate.
    simpl in E. injection E as E. subst s. simpl. f_equal. symmetry. apply satrnd_out; auto; intros Sx.
    + pose proof (Bsign_neg x Fx Sx). rewrite Sx in Sg. pose proof (Bsign_neg y Fy (eq_sym Sg)). lra.
    + pose proof (Bsign_pos x Fx Sx). rewrite Sx in Sg. pose proof (Bsign_pos y Fy (eq_sym Sg)). lra.
Qed.
Lemma finite_satrnd (x : B64) y : finite x -> b64_ord x = Some (satrnd y) -> B2R x = satrnd y.
Proof. intros F O. rewrite b64_ord_finite in O by exact F. congruence. Qed.
Lemma below_finite (x : B64) y (l : B64) : finite l -> b64_ord x = Some y -> Rabs y <= Rabs (B2R l) -> finite x /\ B2R x = y.
Proof.
  intros F O B. pose proof (b64_bound l). assert (FX : is_finite x = true).
  { apply (b64_ord_inside x y O). assert (Rabs (B2R l) < bpow radix2 1024) by (apply Rabs_def1; lra). assert (Rabs y < bpow radix2 1024) by lra. apply Rabs_def2 in H1. lra. }
  split; [exact FX|]. rewrite b64_ord_finite in O by exact FX. congruence.
Qed.
(** |(c0 / j0 -+ c1 / j1) / d| <= (|l0 / j0| + |l1 / j1|) / |d| *)
Lemma wrist_bound (c0 c1 l0 l1 j0 j1 d : B64) : finite c0 -> finite c1 -> finite l0 -> finite l1 -> finite j0 -> finite j1 -> finite d ->
  B2R j0 <> 0 -> B2R j1 <> 0 -> B2R d <> 0 -> Rabs (B2R c0) <= Rabs (B2R l0) -> Rabs (B2R c1) <= Rabs (B2R l1) ->
  finite (Bdiv mode_NE l0 j0) -> finite (Bdiv mode_NE l1 j1) ->
  finite (Bplus mode_NE (Babs (Bdiv mode_NE l0 j0)) (Babs (Bdiv mode_NE l1 j1))) ->
  fle (Babs (Bdiv mode_NE (Bminus mode_NE (Bdiv mode_NE c0 j0) (Bdiv mode_NE c1 j1)) d))
      (Babs (Bdiv mode_NE (Bplus mode_NE (Babs (Bdiv mode_NE l0 j0)) (Babs (Bdiv mode_NE l1 j1))) d)).
Proof.
  intros C0 C1 L0 L1 J0 J1 D NJ0 NJ1 ND B0 B1 F0 F1 FS.
  assert (Q : forall c l j, finite c -> finite l -> finite j -> B2R j <> 0 -> Rabs (B2R c) <= Rabs (B2R l) -> finite (Bdiv mode_NE l j) ->
    finite (Bdiv mode_NE c j) /\ Rabs (B2R (Bdiv mode_NE c j)) <= Rabs (B2R (Bdiv mode_NE l j))).
  { intros c l j C L J NJ B F. assert (LE : Rabs (satrnd (B2R c / B2R j)) <= Rabs (B2R (Bdiv mode_NE l j))).
    { rewrite (finite_satrnd _ _ F (b64_div_ord l j L J NJ)). apply satrnd_abs_le. unfold Rdiv. rewrite !Rabs_mult. apply Rmult_le_compat_r; [apply Rabs_pos|exact B]. }
    destruct (below_finite _ _ _ F (b64_div_ord c j C J NJ) LE) as [A E]. split; [exact A|]. rewrite E. exact LE. }
  destruct (Q c0 l0 j0) as [G0 H0]; auto. destruct (Q c1 l1 j1) as [G1 H1]; auto.
  set (y0 := Bdiv mode_NE c0 j0) in *. set (y1 := Bdiv mode_NE c1 j1) in *. set (z0 := Bdiv mode_NE l0 j0) in *. set (z1 := Bdiv mode_NE l1 j1) in *.
  assert (FA0 : finite (Babs z0)) by (unfold finite; rewrite is_finite_Babs; exact F0). assert (FA1 : finite (Babs z1)) by (unfold finite; rewrite is_finite_Babs; exact F1).
  assert (E : B2R (Bplus mode_NE (Babs z0) (Babs z1)) = satrnd (Rabs (B2R z0) + Rabs (B2R z1))).
  { rewrite (finite_satrnd _ _ FS (b64_plus_ord _ _ FA0 FA1)). rewrite !B2R_Babs. reflexivity. }
  assert (LE : Rabs (satrnd (B2R y0 - B2R y1)) <= Rabs (B2R (Bplus mode_NE (Babs z0) (Babs z1)))).
  { rewrite E. apply satrnd_abs_le. rewrite (Rabs_right (_ + _)) by (pose proof (Rabs_pos (B2R z0)); pose proof (Rabs_pos (B2R z1)); lra).
    eapply Rle_trans; [apply Rabs_triang|]. rewrite Rabs_Ropp. lra. }
  destruct (below_finite _ _ _ FS (b64_minus_ord y0 y1 G0 G1) LE) as [FM EM].
  apply div_bound; auto. rewrite EM. exact LE.
Qed.

(** what a simple transmission and a wrist do with commands within the limits *)
Section Given.
Context {G : Trig B64}.
Variables (dbg : bool) (P : parsers B64) (s : rstate).
Notation K := (builtin dbg P).
Definition within_limit (c l : B64) : Prop := finite c /\ finite l /\ Rabs (B2R c) <= Rabs (B2R l).
Lemma simple_given x t as_ js t1 (ms mt ma : mem B64) i a q l : same_parameters (TSimple x) t -> ready false t -> fits dbg P t as_ js ->
  nth_error (rs_in s) i = Some as_ -> nth_error (rs_out s) i = Some js -> tr_effort K t js as_ ms = Ok (t1, mt) -> (forall p, In p as_ -> m_act ma p = m_act mt p) ->
  pointer_at (rs_in s) i 0 a -> pointer_at (rs_out s) i 0 q -> finite (st_red x) -> B2R (st_red x) <> 0 -> within_limit (commanded_effort (m_js ms q)) l ->
  a_enable (m_act ma a) = true /\ a_effort (m_act ma a) = ndiv (commanded_effort (m_js ms q)) (st_red x) /\
  fle (Babs (a_effort (m_act ma a))) (Babs (ndiv l (st_red x))).
Proof.
  intros SP RD [FA FJ] NA NJ F MA (ps & PA1 & PA2) (qs & PQ1 & PQ2) FR NZ (FC & FL & BC).
  rewrite NA in PA1. injection PA1 as <-. rewrite NJ in PQ1. injection PQ1 as <-.
  destruct t as [y|y|y|y]; cbn [same_parameters] in SP; try contradiction. destruct SP as (_ & _ & _ & RE & _ & _).
  cbn [ready builtin tr_actuators tr_joints] in RD, FA, FJ. destruct RD as [R1 R2]. rewrite R1 in FA. rewrite R2 in FJ.
  destruct (len1 _ FA) as [a' ->]. cbn in PA2. injection PA2 as <-.
  assert (CF : a_enable (m_act mt a') = true /\ a_effort (m_act mt a') = ndiv (commanded_effort (m_js ms q)) (st_red y)).
  { cbn [builtin tr_effort] in F. unfold simple_propagateEffort in F. destruct (simple_sizes _ _ _) as [[]| | |]; cbn [bind vget nth_error keep] in F; try discriminate.
    unfold vget in F. rewrite PQ2 in F. cbn [bind] in F. injection F as _ <-. cbn [act_upd m_act m_js]. unfold Transmission.upd. rewrite Nat.eqb_refl. split; reflexivity. }
  rewrite (MA a' (or_introl eq_refl)). rewrite RE. destruct CF as [C1 C2]. split; [exact C1|]. split; [exact C2|]. rewrite C2. rewrite <- RE. apply div_bound; auto.
Qed.
Lemma wrist_given x t as_ js t1 (ms mt ma : mem B64) i p0' p1' q0 q1 l0 l1 ar0 ar1 jr0 jr1 : same_parameters (TWrist x) t -> ready false t -> fits dbg P t as_ js ->
  nth_error (rs_in s) i = Some as_ -> nth_error (rs_out s) i = Some js -> tr_effort K t js as_ ms = Ok (t1, mt) -> (forall p, In p as_ -> m_act ma p = m_act mt p) ->
  wt_ar x = [ar0; ar1] -> wt_jr x = [jr0; jr1] ->
  pointer_at (rs_in s) i 0 p0' -> pointer_at (rs_in s) i 1 p1' -> p0' <> p1' -> pointer_at (rs_out s) i 0 q0 -> pointer_at (rs_out s) i 1 q1 ->
  within_limit (commanded_effort (m_js ms q0)) l0 -> within_limit (commanded_effort (m_js ms q1)) l1 ->
  finite jr0 -> finite jr1 -> B2R jr0 <> 0 -> B2R jr1 <> 0 ->
  let sum := nadd (nabs (ndiv l0 jr0)) (nabs (ndiv l1 jr1)) in
  finite (ndiv l0 jr0) -> finite (ndiv l1 jr1) -> finite sum ->
  (let d := nmul ntwo ar0 in finite d -> B2R d <> 0 -> fle (nabs (a_effort (m_act ma p0'))) (nabs (ndiv sum d))) /\
  (let d := nmul ntwo ar1 in finite d -> B2R d <> 0 -> fle (nabs (a_effort (m_act ma p1'))) (nabs (ndiv sum d))).
Proof.
  intros SP RD [FA FJ] NA NJ F MA EA EJ (ps & PA1 & PA2) (ps' & PA1' & PA2') NP (qs & PQ1 & PQ2) (qs' & PQ1' & PQ2') (FC0 & FL0 & BC0) (FC1 & FL1 & BC1) FJ0 FJ1 NZ0 NZ1 sum FD0 FD1 FS.
  rewrite NA in PA1, PA1'. injection PA1 as <-. injection PA1' as <-. rewrite NJ in PQ1, PQ1'. injection PQ1 as <-. injection PQ1' as <-.
  destruct t as [y|y|y|y]; cbn [same_parameters] in SP; try contradiction. destruct SP as (_ & _ & _ & RA & RJ & _).
  cbn [ready builtin tr_actuators tr_joints] in RD, FA, FJ. destruct RD as (R1 & R2 & _ & _). rewrite R1 in FA. rewrite R2 in FJ.
  destruct (len2 _ FA) as (a & b & ->), (len2 _ FJ) as (c & d & ->). cbn in PA2, PA2', PQ2, PQ2'. injection PA2 as ->. injection PA2' as ->. injection PQ2 as ->. injection PQ2' as ->.
  set (e0 := commanded_effort (m_js ms q0)) in *. set (e1 := commanded_effort (m_js ms q1)) in *.
  assert (CF : a_effort (m_act mt p0') = ndiv (nsub (ndiv e0 jr0) (ndiv e1 jr1)) (nmul ntwo ar0) /\
               a_effort (m_act mt p1') = ndiv (nsub (ndiv (nopp e0) jr0) (ndiv e1 jr1)) (nmul ntwo ar1)).
  { cbn [builtin tr_effort] in F. unfold wrist_propagateEffort in F. rewrite <- RA, <- RJ, EA, EJ in F. destruct (wrist_sizes _ _ _) as [[]| | |]; cbn [bind vget nth_error keep] in F; try discriminate.
    injection F as _ <-. cbn [act_upd m_act m_js]. unfold Transmission.upd. rewrite !Nat.eqb_refl. rewrite (proj2 (Nat.eqb_neq p0' p1') NP). split; reflexivity. }
  rewrite (MA p0' ltac:(left; reflexivity)), (MA p1' ltac:(right; left; reflexivity)). destruct CF as [C1 C2]. rewrite C1, C2.
  split; intros dd FD NZ; apply wrist_bound; auto.
  - unfold finite. cbn [nopp num_b64]. rewrite is_finite_Bopp. exact FC0.
  - cbn [nopp num_b64]. rewrite B2R_Bopp, Rabs_Ropp. exact BC0.
Qed.
End Given.

Section Bounds.
Context {X : Type} {G : Trig B64}.
Variables (dbg : bool) (P : parsers B64) (L : loader (transmission B64)).
Hypothesis HL : forall c t, ld_create L c = Some t -> is_new t.
Notation K := (builtin dbg P).
Variables (urdf : xml -> option (string -> option (ujoint B64))) (config : xml) (g : B64) (hw : hwif) (mem0 : mem B64) (s : rstate) (p0 : plant (transmission B64) B64).
Hypothesis HI : cm_initXml K dbg L urdf config g hw mem0 = Ok (Some (s, p0)).
Hypothesis HU : forall e, In e (ChildElements config "transmission") -> usable L e.
Variables (tick : X -> Z * X) (cb : ptr -> callback -> X -> mem B64 -> X * mem B64) (pm pj : Z).
Hypothesis HC : keeps_joints cb.
Let H : hooks (sysw (transmission B64) B64 X) := sys_hooks K dbg s tick cb pm pj.

(** the joint has a safety controller and a finite, non-negative effort limit *)
Definition limited (q : nat) (l : B64) : Prop :=
  exists u sf lm, has_safety (m_js (pl_mem p0) q) u sf lm /\ lim_effort lm = l /\ finite l /\ fle f0 l.

Lemma limited_bound ms q l : limited q l -> (exists j, enforceLimits j = Ok (m_js ms q)) -> js_joint (m_js ms q) = js_joint (m_js (pl_mem p0) q) ->
  not_nan (commanded_effort (m_js ms q)) -> within_limit (commanded_effort (m_js ms q)) l.
Proof.
  intros (u & sf & lm & HS & <- & F & NN) [j E] JJ NA.
  assert (JJ' : js_joint j = js_joint (m_js ms q)).
  { unfold enforceLimits in E. destruct (getLimits j) as [[lo hi]| | |]; cbn [bind] in E; try discriminate. injection E as <-. reflexivity. }
  assert (HS' : has_safety j u sf lm) by (unfold has_safety in *; rewrite JJ', JJ; exact HS).
  destruct (C30_effort_within_limit j _ u sf lm HS' NN (enforce_nan _ _ E NA) E) as (A & B & _). destruct (within_finite _ _ F A B) as [FC BC]. repeat split; auto.
Qed.

(** Simple transmissions: in every history, unless a controller commanded NaN, the motor is never commanded more than
    limit / reduction, evaluated in floating point. *)
Theorem C74_simple_motor_bound : forall m0 m ms ma i x a q l, starts p0 m0 -> history H m0 m -> In (ms, ma) (sent (sy_out (world m))) ->
  nth_error (pl_ts p0) i = Some (TSimple x) -> exclusive (rs_in s) i -> pointer_at (rs_in s) i 0 a -> pointer_at (rs_out s) i 0 q ->
  limited q l -> finite (st_red x) -> B2R (st_red x) <> 0 -> not_nan (commanded_effort (m_js ms q)) ->
  a_enable (m_act ma a) = true /\ a_effort (m_act ma a) = ndiv (commanded_effort (m_js ms q)) (st_red x) /\
  fle (Babs (a_effort (m_act ma a))) (Babs (ndiv l (st_red x))).
Proof.
  intros m0 m ms ma i x a q l ST HH IN X0 EX PA PQ LM FR NZ NN.
  destruct (C74_motor_commands dbg P L HL urdf config g hw mem0 s p0 HI HU tick cb pm pj HC m0 m ms ma i _ ST HH IN X0 EX)
    as (t & as_ & js & t1 & mt & SP & RD & FI & NA & NJ & F & MA & EN & JJ).
  apply (simple_given dbg P s x t as_ js t1 ms mt ma i a q l); auto.
  apply limited_bound; auto. apply EN. eapply nth_error_In. destruct PQ as (qs & A & B). rewrite NJ in A. injection A as <-. exact B.
Qed.

(** Wrist transmissions: each of the two motors is never commanded more than
    (|limit0 / reduction0| + |limit1 / reduction1|) / |2 actuator reduction|, evaluated in floating point. *)
Theorem C74_wrist_motor_bound : forall m0 m ms ma i x p0' p1' q0 q1 l0 l1 ar0 ar1 jr0 jr1,
  starts p0 m0 -> history H m0 m -> In (ms, ma) (sent (sy_out (world m))) ->
  nth_error (pl_ts p0) i = Some (TWrist x) -> wt_ar x = [ar0; ar1] -> wt_jr x = [jr0; jr1] -> exclusive (rs_in s) i ->
  pointer_at (rs_in s) i 0 p0' -> pointer_at (rs_in s) i 1 p1' -> p0' <> p1' -> pointer_at (rs_out s) i 0 q0 -> pointer_at (rs_out s) i 1 q1 ->
  limited q0 l0 -> limited q1 l1 -> not_nan (commanded_effort (m_js ms q0)) -> not_nan (commanded_effort (m_js ms q1)) ->
  finite jr0 -> finite jr1 -> B2R jr0 <> 0 -> B2R jr1 <> 0 ->
  let sum := nadd (nabs (ndiv l0 jr0)) (nabs (ndiv l1 jr1)) in
  finite (ndiv l0 jr0) -> finite (ndiv l1 jr1) -> finite sum ->
  (let d := nmul ntwo ar0 in finite d -> B2R d <> 0 -> fle (nabs (a_effort (m_act ma p0'))) (nabs (ndiv sum d))) /\
  (let d := nmul ntwo ar1 in finite d -> B2R d <> 0 -> fle (nabs (a_effort (m_act ma p1'))) (nabs (ndiv sum d))).
Proof.
  intros m0 m ms ma i x p0' p1' q0 q1 l0 l1 ar0 ar1 jr0 jr1 ST HH IN X0 EA EJ EX P0 P1 NP Q0 Q1 LM0 LM1 NN0 NN1 FJ0 FJ1 NZ0 NZ1 sum FD0 FD1 FS.
  destruct (C74_motor_commands dbg P L HL urdf config g hw mem0 s p0 HI HU tick cb pm pj HC m0 m ms ma i _ ST HH IN X0 EX)
    as (t & as_ & js & t1 & mt & SP & RD & FI & NA & NJ & F & MA & EN & JJ).
  apply (wrist_given dbg P s x t as_ js t1 ms mt ma i p0' p1' q0 q1 l0 l1 ar0 ar1 jr0 jr1); auto.
  - apply limited_bound; auto. apply EN. eapply nth_error_In. destruct Q0 as (qs & A & B). rewrite NJ in A. injection A as <-. exact B.
  - apply limited_bound; auto. apply EN. eapply nth_error_In. destruct Q1 as (qs & A & B). rewrite NJ in A. injection A as <-. exact B.
Qed.
End Bounds.

(** ** Example: the joint of C30_ex (effort limit 30) behind a simple transmission with reduction 2, a controller commanding 100 *)
Section Example.
Context {G : Trig B64}.
Local Open Scope nat_scope.
Local Open Scope string_scope.
Local Open Scope list_scope.
Definition exb_P : parsers B64 := mkParsers (fun _ => nofZ 2) (fun _ => Some (nofZ 2)) (fun _ => Some (nofZ 2)).
Definition exb_cal : calsim B64 := new_calsim nzero nzero nzero nzero false false.
Definition exb_L : loader (transmission B64) :=
  pr2_loader (new_gripper nzero false exb_cal) (new_simple nzero nzero false exb_cal) (new_wrist false exb_cal exb_cal)
    (mkBelt "" [] [] 0 nzero nzero nzero nzero nzero nzero nzero nzero nzero nzero nzero nzero nzero nzero nzero nzero nzero nzero nzero nzero 0 nzero nzero nzero nzero nzero nzero nzero false 0 exb_cal).
Definition exb_root : xml := Elem "robot" [] None [ex_simple_el "shoulder" "m0" []].
Definition exb_urdf (_ : xml) : option (string -> option (ujoint B64)) := Some (fun n => if String.eqb n "shoulder" then Some exJoint else None).
Definition exb_mem : mem B64 := mkMem (fun _ => new_actuator nzero) (fun _ => new_jointstate nzero).
Definition exb_init : res (option (rstate * plant (transmission B64) B64)) := cm_initXml (builtin true exb_P) true exb_L exb_urdf exb_root nzero ex_hw exb_mem.
Definition exb_state : rstate := mkRstate 1 [[0]] [[0]] [("shoulder", 0)].
Definition exb_plant : plant (transmission B64) B64 :=
  match exb_init with Ok (Some (_, p)) => p | _ => mkPlant [] exb_mem [] (mkJmsg [] [] [] []) [] [] end.
Definition exb_hooks : hooks (sysw (transmission B64) B64 Z) := sys_hooks (builtin true exb_P) true exb_state exd_tick exd_cb 45%Z 25%Z.
Definition exb0 : mgr (sysw (transmission B64) B64 Z) :=
  mkMgr (fun _ => mkObj "" CONSTRUCTED no_deps new_stats) 0 (fun _ => []) (fun _ => []) false None [] [] false true [] 0%Z 0%Z (mkSysw (Ok exb_plant) 3%Z []) [].
Definition exb_ops : list (op (W:=sysw (transmission B64) B64 Z)) :=
  [OpLoad exEnv "a"; OpUpdate true true; OpSwitch ["a"] [] STRICT; OpUpdate true true; OpUpdate true true; OpUpdate true true].
Definition exb1 : mgr (sysw (transmission B64) B64 Z) := match exec exb_hooks exb_ops exb0 with Some m => m | None => exb0 end.
(** the efforts sent to the joint, and those the motor was commanded: 30 / 2 *)
Example C74_ex : map (fun x => map B2SF [commanded_effort (m_js (fst x) 0); a_effort (m_act (snd x) 0)]) (sent (sy_out (world exb1)))
  = map (fun z => map B2SF [nofZ (fst z); nofZ (snd z)]) [(0, 0); (0, 0); (30, 15); (30, 15)]%Z.
Proof. vm_compute. reflexivity. Qed.
(** every hypothesis of the theorems holds of it *)
Lemma exb_loaded : cm_initXml (builtin true exb_P) true exb_L exb_urdf exb_root nzero ex_hw exb_mem = Ok (Some (exb_state, exb_plant)).
Proof. reflexivity. Qed.
Lemma exb_new : forall c t, ld_create exb_L c = Some t -> is_new t.
Proof.
  intros c t. unfold exb_L, pr2_loader. cbn [ld_create].
  repeat (match goal with |- (if ?x then _ else _) = _ -> _ => destruct x end; [intros [= <-]; cbn; unfold new_gripper, new_simple, new_wrist; eauto 8|]). discriminate.
Qed.
Lemma exb_usable : forall e, In e (ChildElements exb_root "transmission") -> usable exb_L e.
Proof. intros e I ty c t D C CR. cbn in I. destruct I as [<-|[]]. destruct t; cbn; auto. exfalso.
  assert (AV : ld_available exb_L ty = true /\ ty = "pr2_mechanism_model/SimpleTransmission").
  { inversion D as [ty' A|x ty' A B]; cbn in A; try discriminate; subst ty'; injection A as <-; split; reflexivity. }
  destruct AV as [AV ->]. destruct C as [AV'|pre c0 post AV' E1 E2 E3|AV' X]; [discriminate CR|congruence|congruence].
Qed.
Lemma exb_cb_keeps : keeps_joints exd_cb.
Proof.
  intros c k x m p. unfold exd_cb. destruct k; try reflexivity. cbn [snd]. unfold js_upd. cbn [m_js]. unfold Transmission.upd. destruct (Nat.eqb p 0); reflexivity.
Qed.
Lemma exb1_history : starts exb_plant exb0 /\ history exb_hooks exb0 exb1.
Proof.
  split; [repeat split|]. apply exec_history with exb_ops exb0; [repeat constructor|constructor|].
  unfold exb1. assert (Y : match exec exb_hooks exb_ops exb0 with Some _ => true | None => false end = true) by (vm_compute; reflexivity).
  destruct (exec exb_hooks exb_ops exb0); [reflexivity|discriminate].
Qed.
Lemma two_R : finite (nofZ 2 : B64) /\ B2R (nofZ 2 : B64) <> 0%R.
Proof.
  split; [reflexivity|]. assert (O : b64_ord (nofZ 2) <> Some 0%R).
  { assert (LT : nltb (f0 : B64) (nofZ 2) = true) by (vm_compute; reflexivity). cbn [nltb num_b64] in LT. rewrite b64_ltb_ord in LT.
    intros E. rewrite E in LT. change (b64_ord f0) with (Some 0%R) in LT. cbn iota beta in LT. rewrite Raux.Rlt_bool_false in LT; [discriminate|lra]. }
  intros E. apply O. rewrite b64_ord_finite by reflexivity. rewrite E. reflexivity.
Qed.
Lemma exb_exclusive : exclusive (rs_in exb_state) 0.
Proof. intros j k k' a _ (ps & A & B). destruct j as [|j]; [reflexivity|]. destruct j; discriminate A. Qed.
Lemma exb_act : pointer_at (rs_in exb_state) 0 0 0.
Proof. exists [0]. split; reflexivity. Qed.
Lemma exb_joint : pointer_at (rs_out exb_state) 0 0 0.
Proof. exists [0]. split; reflexivity. Qed.
Lemma exb_first : exists x, nth_error (pl_ts exb_plant) 0 = Some (TSimple x) /\ st_red x = nofZ 2.
Proof. eexists. split; reflexivity. Qed.
Lemma exb_limited : limited exb_plant 0 (nofZ 30).
Proof.
  exists exJoint, (mkSafety (nofZ 100) (nofZ 10) (nofZ (-2)) (nofZ 2)), (mkLimits (nofZ (-3)) (nofZ 3) (nofZ 30) (nofZ 4)).
  split; [split; [reflexivity|split; reflexivity]|]. split; [reflexivity|]. split; [reflexivity|]. vm_compute. reflexivity.
Qed.
Example C74_ex_bound : exists x, st_red x = nofZ 2 /\ forall ms ma, In (ms, ma) (sent (sy_out (world exb1))) -> not_nan (commanded_effort (m_js ms 0)) ->
  fle (Babs (a_effort (m_act ma 0))) (Babs (ndiv (nofZ 30) (st_red x))).
Proof.
  destruct exb_first as (x & X0 & XR). exists x. split; [exact XR|]. intros ms ma IN NN. destruct exb1_history as [ST HH].
  assert (TW : finite (st_red x) /\ B2R (st_red x) <> 0%R) by (rewrite XR; exact two_R). destruct TW as [F2 N2]. clear XR.
  exact (proj2 (proj2 (C74_simple_motor_bound true exb_P exb_L exb_new exb_urdf exb_root nzero ex_hw exb_mem exb_state exb_plant exb_loaded exb_usable exd_tick exd_cb 45%Z 25%Z exb_cb_keeps
    exb0 exb1 ms ma 0 x 0 0 (nofZ 30) ST HH IN X0 exb_exclusive exb_act exb_joint exb_limited F2 N2 NN))).
Qed.
End Example.
