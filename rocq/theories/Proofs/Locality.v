(** Every propagate function of the built-in transmissions is local. *)
From Coq Require Import List String Arith Bool ZArith Lia.
From Verif.Model Require Import Base Num Joint Hardware Xml Transmission Simple Wrist Belt Gripper Robot Builtin.
From Verif.Spec Require Import LocalSpec.
From Verif.Proofs Require Import TransmissionProofs.
Import ListNotations.

Section Loc.
Context {T : Type} {N : Num T} {G : Trig T}.

(** ** agreement *)
Lemma agree_js as_ js (m m2 : mem T) p f g : (forall x, f x = g x) -> agree as_ js m m2 -> agree as_ js (js_upd p f m) (js_upd p g m2).
Proof. intros E [A B]. split; [exact A|]. intros q I. cbn [js_upd m_js]. unfold upd. rewrite (B q I), E. reflexivity. Qed.
Lemma agree_act as_ js (m m2 : mem T) p f g : (forall x, f x = g x) -> agree as_ js m m2 -> agree as_ js (act_upd p f m) (act_upd p g m2).
Proof. intros E [A B]. split; [|exact B]. intros q I. cbn [act_upd m_act]. unfold upd. rewrite (A q I), E. reflexivity. Qed.

(** ** frames, with what is kept as an equivalence *)
Definition equiv {A} (R : A -> A -> Prop) : Prop := (forall x, R x x) /\ (forall x y z, R x y -> R y z -> R x z).
Lemma equiv_cmd : equiv (@all_but_command T).
Proof. split; [intros x e f; reflexivity|]. intros x y z A B e f. rewrite A. apply B. Qed.
Lemma equiv_command : equiv (@same_command T).
Proof. split; [intros x; repeat split|]. intros x y z (A & B & C) (D & E & F). repeat split; congruence. Qed.
Lemma equiv_effort : equiv (@all_but_effort T).
Proof. split; [intros x f; reflexivity|]. intros x y z A B f. rewrite A. apply B. Qed.
Lemma equiv_input : equiv (@same_input T).
Proof. split; [intros x; repeat split|]. intros x y z (A & B & C) (D & E & F). repeat split; congruence. Qed.

Lemma wj_refl k js (m : mem T) : equiv k -> writes_joints k js m m.
Proof. intros [R _]. repeat split; auto. Qed.
Lemma wj_trans k js (m1 m2 m3 : mem T) : equiv k -> writes_joints k js m1 m2 -> writes_joints k js m2 m3 -> writes_joints k js m1 m3.
Proof. intros [R Tr] (A & B & C) (D & E & F). split; [intros; rewrite D; apply A|]. split; [intros q I; rewrite (E q I); auto|]. intros q. eapply Tr; eauto. Qed.
Lemma wj_upd k js (m m' : mem T) p f : equiv k -> In p js -> (forall x, k (f x) x) -> writes_joints k js m m' -> writes_joints k js m (js_upd p f m').
Proof.
  intros [R Tr] I K (A & B & C). split; [exact A|]. split; intros q; cbn [js_upd m_js]; unfold upd; destruct (Nat.eqb_spec q p) as [->|]; auto.
  - tauto.
  - eapply Tr; eauto.
Qed.
Lemma wa_refl k js (m : mem T) : equiv k -> writes_actuators k js m m.
Proof. intros [R _]. repeat split; auto. Qed.
Lemma wa_trans k js (m1 m2 m3 : mem T) : equiv k -> writes_actuators k js m1 m2 -> writes_actuators k js m2 m3 -> writes_actuators k js m1 m3.
Proof. intros [R Tr] (A & B & C) (D & E & F). split; [intros; rewrite D; apply A|]. split; [intros q I; rewrite (E q I); auto|]. intros q. eapply Tr; eauto. Qed.
Lemma wa_upd k js (m m' : mem T) p f : equiv k -> In p js -> (forall x, k (f x) x) -> writes_actuators k js m m' -> writes_actuators k js m (act_upd p f m').
Proof.
  intros [R Tr] I K (A & B & C). split; [exact A|]. split; intros q; cbn [act_upd m_act]; unfold upd; destruct (Nat.eqb_spec q p) as [->|]; auto.
  - tauto.
  - eapply Tr; eauto.
Qed.
Lemma wa_upd1 k js (m m' : mem T) p a : equiv k -> In p js -> k a (m_act m' p) -> writes_actuators k js m m' -> writes_actuators k js m (act_upd p (fun _ => a) m').
Proof.
  intros [R Tr] I K (A & B & C). split; [exact A|]. split; intros q; cbn [act_upd m_act]; unfold upd; destruct (Nat.eqb_spec q p) as [->|]; auto.
  - tauto.
  - eapply Tr; eauto.
Qed.

(** ** outcomes of the two runs *)
Definition twins {A} (W : mem T -> mem T -> Prop) (as_ js : list nat) (m : mem T) (x y : res (A * mem T)) : Prop :=
  match x, y with
  | Ok (a, m'), Ok (b, m2') => a = b /\ agree as_ js m' m2' /\ W m m'
  | UB, UB | Abort, Abort | Hang, Hang => True
  | _, _ => False
  end.
Lemma twins_local {A} W as_ js (f : mem T -> res (A * mem T)) :
  (forall m m2, agree as_ js m m2 -> twins W as_ js m (f m) (f m2)) -> local W as_ js f.
Proof.
  intros H m. split.
  - intros a m' E. assert (AG : agree as_ js m m) by (split; auto). pose proof (H _ _ AG) as X. rewrite E in X. cbn in X. split; [tauto|].
    intros m2 A2. pose proof (H _ _ A2) as Y. rewrite E in Y. cbn in Y. destruct (f m2) as [[b m2']| | |] eqn:F; try tauto.
    destruct Y as (-> & Y & _). eauto.
  - intros m2 A2. pose proof (H _ _ A2) as Y. unfold twins in Y. destruct (f m) as [[a m']| | |], (f m2) as [[b m2']| | |]; try tauto; repeat split; intros Q; try discriminate Q; auto.
Qed.
Lemma twins_bind {A B} W as_ js m (x y : res (A * mem T)) (k k' : A * mem T -> res (B * mem T)) :
  twins W as_ js m x y -> (forall a m1 m2, agree as_ js m1 m2 -> W m m1 -> twins W as_ js m (k (a, m1)) (k' (a, m2))) ->
  twins W as_ js m (bind x k) (bind y k').
Proof.
  intros H K. unfold twins in H. destruct x as [[a m']| | |], y as [[b m2']| | |]; try tauto; cbn [bind]; try exact I.
  destruct H as (-> & E & F). apply K; auto.
Qed.
Lemma vget_cases {A} (l : list A) i : (exists x, vget l i = Ok x /\ In x l) \/ vget l i = UB.
Proof. unfold vget. destruct (nth_error l i) eqn:E; [left; exists a; split; auto; eapply nth_error_In; eauto|auto]. Qed.

Lemma simcal_twins dbg c pj pa as_ js (m0 m m2 : mem T) (W : mem T -> mem T -> Prop) : agree as_ js m m2 -> In pj js -> In pa as_ ->
  (forall a', same_but_calibration (m_act m pa) a' -> W m0 (act_upd pa (fun _ => a') m)) ->
  twins W as_ js m0 (simcal_mem dbg c pj pa m) (simcal_mem dbg c pj pa m2).
Proof.
  intros AG IJ IA F. assert (AG' := AG). destruct AG' as [A B]. unfold simcal_mem. rewrite (A _ IA), (B _ IJ).
  destruct (js_joint (m_js m pj)) as [u|] eqn:J.
  - destruct (simulate_total dbg c (m_js m pj) (m_act m pa)) as (c' & a' & -> & S); [congruence|]. cbn [bind twins]. split; auto. split; [apply agree_act; auto|auto].
  - destruct (simulateJointCalibration dbg c (m_js m pj) (m_act m pa)) as [[c' a']| | |] eqn:E; cbn [bind twins]; auto.
    split; auto. split; [apply agree_act; auto|]. apply F.
    unfold simulateJointCalibration in E. destruct (cs_got_info c) eqn:GI.
    + cbn [bind] in E. revert E. clear. intros E.
      injection E as _ E. subst a'.
      assert (K : forall (a : actuator T) r, same_but_calibration a (set_a_calibration_reading r a)).
      { intros a r. exists r, (a_rising_valid a), (a_falling_valid a), (a_last_rising a), (a_last_falling a). destruct a; reflexivity. }
      assert (K1 : forall (a : actuator T) r v l, same_but_calibration a (set_a_last_rising l (set_a_rising_valid v (set_a_calibration_reading r a)))).
      { intros a r v l. exists r, v, (a_falling_valid a), l, (a_last_falling a). destruct a; reflexivity. }
      assert (K2 : forall (a : actuator T) r v l, same_but_calibration a (set_a_last_falling l (set_a_falling_valid v (set_a_calibration_reading r a)))).
      { intros a r v l. exists r, (a_rising_valid a), v, (a_last_rising a), l. destruct a; reflexivity. }
      repeat match goal with |- context [if ?b then _ else _] => destruct b end; auto.
    + unfold GetJointCalibrationInfo in E. rewrite J in E. unfold cassert in E. destruct dbg; cbn in E; discriminate.
Qed.

Variables (dbg : bool) (P : parsers T).
Notation K := (builtin dbg P).

Ltac getp := match goal with
  | |- context [vget ?l ?i] =>
      let x := fresh "x" in let E := fresh "E" in let I := fresh "I" in
      destruct (vget_cases l i) as [(x & E & I)|E]; rewrite ?E; cbn [bind]; [|exact Logic.I]
  | |- context [cassert dbg ?b] => destruct (cassert dbg b); cbn [bind]; try exact Logic.I
  end.
(* rewrite what the second run reads into what the first one read *)
Ltac same_reads AG := let A := fresh in let B := fresh in pose proof AG as [A B];
  repeat match goal with
  | H : In ?x ?l, A : forall p, In p ?l -> m_act ?m2 p = m_act ?m p |- context [m_act ?m2 ?x] => rewrite (A x H)
  | H : In ?x ?l, B : forall p, In p ?l -> m_js ?m2 p = m_js ?m p |- context [m_js ?m2 ?x] => rewrite (B x H)
  end; clear A B.
Ltac agr := repeat first [assumption | apply agree_js; [intros; reflexivity|] | apply agree_act; [intros; reflexivity|]].
Ltac wrj := repeat first [apply wj_refl; apply equiv_input | apply wj_refl; apply equiv_effort
  | apply wj_upd; [first [apply equiv_input|apply equiv_effort]|assumption|intros; repeat split|]].
Ltac wra := repeat first [apply wa_refl; apply equiv_cmd | apply wa_refl; apply equiv_command
  | apply wa_upd; [first [apply equiv_cmd|apply equiv_command]|assumption|intros; repeat split|]].

Lemma passive_twins pos vel eff as_ js m0 : forall n i (m m2 : mem T), agree as_ js m m2 -> writes_joints same_input js m0 m ->
  twins (writes_joints same_input js) as_ js m0 (keep tt (passive_loop n i pos vel eff js m)) (keep tt (passive_loop n i pos vel eff js m2)).
Proof.
  induction n as [|n IH]; intros i m m2 AG F; cbn [passive_loop]; [cbn; auto|].
  destruct (vget_cases js i) as [(x & E & I)|E]; rewrite E; cbn [bind keep]; [|exact Logic.I]. apply IH; [agr|]. wrj. exact F.
Qed.
Lemma blank_agree as_ js (m m2 : mem T) q : agree as_ js m m2 -> agree as_ js (blank_joint q m) (blank_joint q m2).
Proof. intros AG. unfold blank_joint. agr. Qed.
Lemma blank_writes js (m m' : mem T) q : In q js -> writes_joints same_input js m m' -> writes_joints same_input js m (blank_joint q m').
Proof. intros I F. unfold blank_joint. wrj. exact F. Qed.

Lemma position_local t i o : local (writes_joints same_input o) i o (tr_position K t i o).
Proof.
  apply twins_local. intros m m2 AG. destruct t as [t|t|t|t]; cbn [tr_position builtin].
  - unfold keep, simple_propagatePosition, simple_sizes. cbv zeta. cbn [m_act js_upd].
    repeat getp. same_reads AG. destruct (st_use_sim t); repeat getp; cbn [bind twins]; (split; [reflexivity|]); (split; [agr|wrj]).
  - unfold keep, wrist_propagatePosition, wrist_sizes. cbv zeta. cbn [m_act js_upd].
    repeat getp. same_reads AG. cbn [bind twins]; (split; [reflexivity|]); (split; [agr|wrj]).
  - unfold wrap, belt_propagatePosition, belt_sizes. cbv zeta. repeat getp. same_reads AG.
    destruct (belt_jnt1 _ _ _ _ _ _) as [[? ?] ?]. destruct (belt_defl _ _ _ _ _ _ _) as [[? ?] ?]. destruct (belt_combine _ _ _ _ _ _ _) as [? ?].
    cbn [bind twins]; (split; [reflexivity|]); (split; [agr|wrj]).
  - unfold keep, gripper_propagatePosition. cbv zeta. repeat getp. same_reads AG.
    match goal with |- context [passive_loop ?n 1 ?a ?b ?c o ?m1] =>
      match goal with |- context [passive_loop n 1 a b c o ?m2'] => first [constr_eq m1 m2'; fail 1 | 
        assert (PT := passive_twins a b c i o m n 1 m1 m2'); destruct (passive_loop n 1 a b c o m1) as [mm| | |];
        destruct (passive_loop n 1 a b c o m2') as [mm2| | |] ] end end;
      (lapply PT; [clear PT; intros PT; lapply PT; [clear PT; intros PT; cbn in PT; try contradiction|wrj]|agr]); try exact Logic.I.
    destruct PT as (_ & AG1 & W1). cbn [bind]. repeat getp.
    destruct (gr_has_passive t); repeat getp; cbn [bind twins]; (split; [reflexivity|]); (split; [repeat apply blank_agree; exact AG1|repeat (apply blank_writes; [assumption|])]; exact W1).
Qed.

Lemma effort_local t i o : local (writes_actuators all_but_command i) i o (tr_effort K t o i).
Proof.
  apply twins_local. intros m m2 AG. destruct t as [t|t|t|t]; cbn [tr_effort builtin].
  - unfold keep, simple_propagateEffort, simple_sizes. cbv zeta. cbn [m_js act_upd].
    repeat getp. same_reads AG. cbn [bind twins]; (split; [reflexivity|]); (split; [agr|wra]).
  - unfold keep, wrist_propagateEffort, wrist_sizes. cbv zeta. cbn [m_act js_upd].
    repeat getp. same_reads AG. cbn [bind twins]; (split; [reflexivity|]); (split; [agr|wra]).
  - unfold wrap, belt_propagateEffort, belt_sizes. cbv zeta. repeat getp. same_reads AG.
    cbn [bind twins]; (split; [reflexivity|]); (split; [agr|wra]).
  - unfold keep, gripper_propagateEffort. cbv zeta. repeat getp. same_reads AG.
    destruct (inverseGapStates t _) as [[[? ?] ?] ?]. cbn [bind twins]; (split; [reflexivity|]); (split; [agr|wra]).
Qed.

Lemma effortBack_local t i o : local (writes_joints all_but_effort o) i o (tr_effortBackwards K t i o).
Proof.
  apply twins_local. intros m m2 AG. destruct t as [t|t|t|t]; cbn [tr_effortBackwards builtin].
  - unfold keep, simple_propagateEffortBackwards, simple_sizes. cbv zeta.
    repeat getp. same_reads AG. destruct (st_use_sim t); repeat getp; cbn [bind twins]; (split; [reflexivity|]); (split; [agr|wrj]).
  - unfold keep, wrist_propagateEffortBackwards, wrist_sizes. cbv zeta.
    repeat getp. same_reads AG. cbn [bind twins]; (split; [reflexivity|]); (split; [agr|wrj]).
  - unfold wrap, belt_propagateEffortBackwards, belt_sizes. cbv zeta. repeat getp. same_reads AG.
    cbn [bind twins]; (split; [reflexivity|]); (split; [agr|wrj]).
  - unfold keep, gripper_propagateEffortBackwards. cbv zeta. repeat getp. same_reads AG.
    cbn [bind twins]; (split; [reflexivity|]); (split; [agr|wrj]).
Qed.

Ltac calw S := apply wa_upd1; [apply equiv_command|assumption|destruct S as (? & ? & ? & ? & ? & ->); repeat split|wra].
Lemma positionBack_local e t i o : local (writes_actuators same_command i) i o (tr_positionBackwards K e t o i).
Proof.
  apply twins_local. intros m m2 AG. destruct t as [t|t|t|t]; cbn [tr_positionBackwards builtin].
  - unfold wrap, simple_propagatePositionBackwards, simple_sizes. cbv zeta. cbn [m_js act_upd].
    repeat getp. same_reads AG. destruct (sim_clock _ _ _) as [[? ?] ?].
    eapply twins_bind; [|intros ? ? ? A1 W1; cbn; auto]. eapply twins_bind; [|intros ? ? ? A1 W1; cbn; auto].
    apply simcal_twins; auto; [agr|]. intros a' S. calw S.
  - unfold wrap, wrist_propagatePositionBackwards, wrist_sizes. cbv zeta.
    repeat getp. same_reads AG. destruct (sim_clock _ _ _) as [[? ?] ?].
    eapply twins_bind; [|intros ? ? ? A1 W1; cbn; auto].
    eapply twins_bind; [apply simcal_twins; auto; [agr|]; intros a' S; calw S|]. intros c0 m1 m1' A1 W1. cbv beta iota.
    eapply twins_bind; [|intros ? ? ? A2 W2; cbn; auto]. 
    apply simcal_twins; auto. intros a' S. calw S. exact W1.
  - unfold wrap, belt_propagatePositionBackwards, belt_sizes. cbv zeta. repeat getp. same_reads AG.
    match goal with |- context [if belt_rigid t then ?x else ?y] => destruct (if belt_rigid t then x else y) as [[? ?] ?] end.
    destruct (sim_clock _ _ _) as [[? ?] ?].
    eapply twins_bind; [|intros ? ? ? A1 W1; cbn; auto]. eapply twins_bind; [|intros ? ? ? A1 W1; cbn; auto].
    apply simcal_twins; auto; [agr|]. intros a' S. calw S.
  - unfold wrap, gripper_propagatePositionBackwards. cbv zeta. repeat getp. same_reads AG.
    destruct (inverseGapStates t _) as [[[? ?] ?] ?]. destruct (sim_clock _ _ _) as [[? ?] ?].
    eapply twins_bind; [|intros ? ? ? A1 W1; cbn; auto]. eapply twins_bind; [|intros ? ? ? A1 W1; cbn; auto].
    apply simcal_twins; auto; [agr|]. intros a' S. calw S.
Qed.
End Loc.
